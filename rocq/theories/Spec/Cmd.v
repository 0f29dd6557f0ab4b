(** What a conversation between a client and the interactive mode should look like. *)
From Coq Require Import Ascii String List NArith ZArith Lia Bool Arith.
From Verif Require Import Base Model.Params Spec.Params Model.Serial Model.Cmd.
Import ListNotations.
Open Scope nat_scope.
Open Scope list_scope.
Set Implicit Arguments.

(** ** Two programs joined by two FIFOs, under every schedule *)
Section Joined.
  Variables (I O A B : Type).
  (** first program, second program, messages on their way to the first and to the second *)
  Record cfg := mkCfg { p1 : prog I O A; p2 : prog O I B; to1 : list I; to2 : list O }.
  Inductive step : cfg -> cfg -> Prop :=
  | snd1 o k c q r : step (mkCfg (Snd o k) c q r) (mkCfg k c q (r ++ [o]))
  | rcv1 i k c q r : step (mkCfg (Rcv k) c (i :: q) r) (mkCfg (k i) c q r)
  | snd2 s i k q r : step (mkCfg s (Snd i k) q r) (mkCfg s k (q ++ [i]) r)
  | rcv2 s o k q r : step (mkCfg s (Rcv k) q (o :: r)) (mkCfg s (k o) q r).
  Inductive steps : nat -> cfg -> cfg -> Prop :=
  | here x : steps 0 x x
  | more n x y z : step x y -> steps n y z -> steps (S n) x z.
  Definition stuck (x : cfg) : Prop := forall y, ~ step x y.
  (** every schedule ends, and ends in [f] *)
  Definition settles (x f : cfg) : Prop :=
    stuck f /\ exists n, forall m y, steps m x y -> m <= n /\ steps (n - m) y f.
End Joined.
Arguments mkCfg {I O A B}.

(** [sends p m]: some conversation makes [p] send [m] *)
Inductive sends {I O A} : prog I O A -> O -> Prop :=
| sends_now o k : sends (Snd o k) o
| sends_next o k m : sends k m -> sends (Snd o k) m
| sends_after k i m : sends (k i) m -> sends (Rcv k) m.

Section Talk.
  Variables (op wf data num rest : Type).
  Notation command := (command num). Notation response := (response num).
  Notation c2s := (c2s data num). Notation s2c := (s2c data num).
  Notation world := (world rest). Notation env := (env op wf data num rest).

  Inductive answer := A_resp (r : response) | A_stream (d : data).
  Definition ans (m : s2c) : answer := match m with MResp _ r => A_resp r | MStream _ d => A_stream d end.
  Definition is_error (r : response) : bool := match r_code r with Some R_ERROR_MSG | Some R_ERROR => true | _ => false end.
  (** IACmds.proto:37-41: the fields marked required *)
  Definition well_formed (r : response) : Prop := r_code r <> None /\ r_follows r <> None.

  (** number of data streams a command comes with *)
  Definition needs (cd : code) : nat :=
    match cd with WRITE_WF | WRITE_OP | GET_EXPEC | APPLY_OP => 1 | GET_MATEL => 2 | _ => 0 end.

  Fixpoint send_all {A} (ds : list data) (k : client data num A) : client data num A :=
    match ds with [] => k | d :: t => Snd (MData num d) (send_all t k) end.

  (** A client: sends the command, waits for a response, gives up on an error, sends its data, waits for the answer. *)
  Definition talk (c : command) (ds : list data) : client data num answer :=
    Snd (MCmd data c) (Rcv (fun m =>
      match m with
      | MStream _ d => Ret (A_stream d)
      | MResp _ r =>
        if is_error r then Ret (A_resp r)
        else match ds with
             | [] => match r_follows r with Some true => Rcv (fun m => Ret (ans m)) | _ => Ret (A_resp r) end
             | _ => send_all ds (Rcv (fun m => Ret (ans m)))
             end
      end)).
  (** A client that sends its data without waiting and then reads [n] messages. *)
  Fixpoint collect (n : nat) : client data num (list answer) :=
    match n with
    | O => Ret []
    | S n => Rcv (fun m => after (collect n) (fun l => Ret (ans m :: l)))
    end.
  Definition blurt (c : command) (ds : list data) (n : nat) : client data num (list answer) :=
    Snd (MCmd data c) (send_all ds (collect n)).

  Variable (E : env) (dir : str).

  (** the operator a command asks for is found / is not found, with the reason *)
  Inductive finds (c : command) (w : world) : op -> world -> Prop :=
  | f_xml x o w' : c_xml c = Some x -> e_chain E x w = Good (Some o) w' -> finds c w o w'
  | f_ref s o w' : c_xml c = None -> c_s1 c = Some s -> e_ref E s w = Good (Some o) w' -> finds c w o w'.
  Inductive misses (c : command) (w : world) : str -> world -> Prop :=
  | m_xml x m w' : c_xml c = Some x -> e_chain E x w = Err m w' -> misses c w m w'
  | m_null x w' : c_xml c = Some x -> e_chain E x w = Good None w' -> misses c w (lit "Operator load from command failed") w'
  | m_ref s m w' : c_xml c = None -> c_s1 c = Some s -> e_ref E s w = Err m w' -> misses c w m w'
  | m_unknown s w' : c_xml c = None -> c_s1 c = Some s -> e_ref E s w = Good None w' ->
      misses c w (lit "Operator load from command by reference failed") w'
  | m_none : c_xml c = None -> c_s1 c = None ->
      misses c w (lit "Can't load operator, neither XML nor reference is given.") w.

  (** the operator accepts a wave function, after being initialised with it if need be *)
  Inductive accepts (o : op) (f : wf) (w : world) : world -> Prop :=
  | a_valid w1 w2 : e_valid E o (Some f) w = Good true w1 -> e_valid E o (Some f) w1 = Good true w2 -> accepts o f w w2
  | a_init w1 w2 w3 : e_valid E o (Some f) w = Good false w1 -> e_init E o (Some f) w1 = Good tt w2 ->
      e_valid E o (Some f) w2 = Good true w3 -> accepts o f w w3.
  (** the operator does not accept it, even after being initialised *)
  Inductive rejects (o : op) (f : wf) (w : world) : world -> Prop :=
  | r_valid w1 w2 : e_valid E o (Some f) w = Good true w1 -> e_valid E o (Some f) w1 = Good false w2 -> rejects o f w w2
  | r_init w1 w2 w3 : e_valid E o (Some f) w = Good false w1 -> e_init E o (Some f) w1 = Good tt w2 ->
      e_valid E o (Some f) w2 = Good false w3 -> rejects o f w w3.

  Definition gzip (s : option str) : bool := match s with Some z => str_eqb z (lit "gzip") | None => false end.
  Definition answer_ok : answer := A_resp (mkResp (Some R_OK) None [] (Some false)).
  Definition answer_err (m : str) : answer := A_resp (mkResp (Some R_ERROR_MSG) (Some m) [] (Some false)).

  (** What a command that works should answer: answer and state afterwards *)
  Inductive succeeds (w : world) (c : command) : list data -> answer -> world -> Prop :=
  | s_run x w' : c_code c = RUN_PROG -> c_xml c = Some x -> e_run E x dir w = Good tt w' -> succeeds w c [] answer_ok w'
  | s_read_wf n f d w1 w' : c_code c = READ_WF -> c_s1 c = Some n -> e_load E n w = Good f w1 -> e_encode E f w1 = Good d w' ->
      succeeds w c [] (A_stream d) w'
  | s_write_wf n d f w1 w' : c_code c = WRITE_WF -> c_s1 c = Some n -> e_decode E d w = Good f w1 ->
      e_store E n (gzip (c_s2 c)) f w1 = Good tt w' -> succeeds w c [d] answer_ok w'
  | s_read_op n m o w1 w2 d w' : c_code c = READ_OP -> c_s1 c = Some n -> c_s2 c = Some m -> e_module E m w = Good (Some o) w1 ->
      e_ser E o = true -> e_opread E n o w1 = Good tt w2 -> e_opsend E o w2 = Good d w' -> succeeds w c [] (A_stream d) w'
  | s_write_laser n o w1 d w2 w' : c_code c = WRITE_OP -> c_s1 c = Some n -> c_s2 c = Some (lit "Laser") ->
      e_laser E w = Good o w1 -> e_opget E d o w1 = Good tt w2 ->
      e_opstore E (n ++ lit ".op") (gzip (c_s3 c)) o w2 = Good tt w' -> succeeds w c [d] answer_ok w'
  | s_write_op n m o w1 d w2 w' : c_code c = WRITE_OP -> c_s1 c = Some n -> c_s2 c = Some m -> m <> lit "Laser" ->
      (* the class name with or without its leading O *)
      (exists nm, e_module E nm w = Good (Some o) w1 /\ ((exists t, m = "O"%char :: t /\ nm = t) \/ (exists ch t, m = ch :: t /\ ch <> "O"%char /\ nm = m))) ->
      e_ser E o = true -> e_opget E d o w1 = Good tt w2 ->
      e_opstore E (n ++ lit ".op") (gzip (c_s3 c)) o w2 = Good tt w' -> succeeds w c [d] answer_ok w'
  | s_clear w' : c_code c = CLEAR_OBJECTS -> e_clear E w = Good tt w' -> succeeds w c [] answer_ok w'
  | s_load_op x o w' : c_code c = LOAD_OP -> c_xml c = Some x -> e_chain E x w = Good (Some o) w' -> succeeds w c [] answer_ok w'
  | s_load_U x t n k u w1 w' : c_code c = LOAD_U -> c_xml c = Some x -> c_d1 c = Some t -> c_d2 c = Some n -> e_int E n = Some k ->
      e_prop E x w = Good (Some u) w1 -> e_setclock E u k t w1 = Good tt w' -> succeeds w c [] answer_ok w'
  | s_expec o w1 d f w2 w3 v w' : c_code c = GET_EXPEC -> finds c w o w1 -> e_decode E d w1 = Good f w2 -> accepts o f w2 w3 ->
      e_expec E o (Some f) w3 = Good v w' -> succeeds w c [d] (A_resp (mkResp (Some R_OK) None [v] None)) w'
  | s_apply o w1 d f w2 w3 g w4 r w' : c_code c = APPLY_OP -> c_d1 c = None -> finds c w o w1 -> e_decode E d w1 = Good f w2 ->
      accepts o f w2 w3 -> e_apply E o (Some f) w3 = Good (Some g) w4 -> e_encode E g w4 = Good r w' ->
      succeeds w c [d] (A_stream r) w'
  | s_apply_at o w1 t k n d f w2 w3 g w4 r w' : c_code c = APPLY_OP -> c_d1 c = Some t -> finds c w o w1 ->
      e_clock E o w1 = Some n -> e_int E t = Some k -> (0 <= k <= n)%Z ->
      e_decode E d (e_settime E o k w1) = Good f w2 ->
      accepts o f w2 w3 -> e_apply E o (Some f) w3 = Good (Some g) w4 -> e_encode E g w4 = Good r w' ->
      succeeds w c [d] (A_stream r) w'
  | s_get : c_code c = GET_GLOBAL_PARAMS ->
      succeeds w c [] (A_resp (mkResp None (Some (write_c false (w_gp w))) [] None)) w
  | s_set s pm : c_code c = SET_GLOBAL_PARAMS -> c_s1 c = Some s -> lines_fit s -> parses_to s None (Ok pm) ->
      succeeds w c [] answer_ok (mkW (add_c (w_gp w) pm) (w_rest w)).

  (** What a command that fails in a regular way should answer.  [None]: the program ends after the answer. *)
  Inductive fails (w : world) (c : command) : list data -> str -> option world -> Prop :=
  | x_run_xml : c_code c = RUN_PROG -> c_xml c = None -> fails w c [] (lit "RUN_PROG is missing the XML input") (Some w)
  | x_run x m w' : c_code c = RUN_PROG -> c_xml c = Some x -> e_run E x dir w = Err m w' -> fails w c [] m None
  | x_read_wf : c_code c = READ_WF -> c_s1 c = None -> fails w c [] (lit "READ_WF is missing a file name") (Some w)
  | x_read_wf_send n f m w1 w2 : c_code c = READ_WF -> c_s1 c = Some n -> e_load E n w = Good f w1 -> e_encode E f w1 = Err m w2 ->
      fails w c [] m None
  | x_write_wf d : c_code c = WRITE_WF -> c_s1 c = None -> fails w c [d] (lit "WRITE_WF is missing a file name") (Some w)
  | x_write_wf_data d n m w' : c_code c = WRITE_WF -> c_s1 c = Some n -> e_decode E d w = Err m w' -> fails w c [d] m (Some w')
  | x_write_wf_store d n f w1 m w' : c_code c = WRITE_WF -> c_s1 c = Some n -> e_decode E d w = Good f w1 ->
      e_store E n (gzip (c_s2 c)) f w1 = Err m w' -> fails w c [d] m None
  | x_read_op_1 : c_code c = READ_OP -> c_s1 c = None -> fails w c [] (lit "READ_OP is missing a file name") (Some w)
  | x_read_op_2 n : c_code c = READ_OP -> c_s1 c = Some n -> c_s2 c = None -> fails w c [] (lit "READ_OP is missing a class name") (Some w)
  | x_read_op_file n m o w1 e w2 : c_code c = READ_OP -> c_s1 c = Some n -> c_s2 c = Some m -> e_module E m w = Good (Some o) w1 ->
      e_ser E o = true -> e_opread E n o w1 = Err e w2 -> fails w c [] e None
  | x_write_op_1 d : c_code c = WRITE_OP -> c_s1 c = None -> fails w c [d] (lit "WRITE_OP is missing a file name") (Some w)
  | x_write_op_2 d n : c_code c = WRITE_OP -> c_s1 c = Some n -> c_s2 c = None -> fails w c [d] (lit "WRITE_OP is missing a class name") (Some w)
  | x_load_U x t n m w' : c_code c = LOAD_U -> c_xml c = Some x -> c_d1 c = Some t -> c_d2 c = Some n -> e_prop E x w = Err m w' -> fails w c [] m None
  | x_load_U_null x t n w' : c_code c = LOAD_U -> c_xml c = Some x -> c_d1 c = Some t -> c_d2 c = Some n -> e_prop E x w = Good None w' ->
      fails w c [] (lit "Propagator load from command failed") None
  | x_apply_clock o w1 t d : c_code c = APPLY_OP -> c_d1 c = Some t -> finds c w o w1 -> e_clock E o w1 = None ->
      fails w c [d] (lit "Operator has no clock") (Some w1)
  | x_apply_time o w1 t k n d : c_code c = APPLY_OP -> c_d1 c = Some t -> finds c w o w1 -> e_clock E o w1 = Some n ->
      e_int E t = Some k -> (k < 0 \/ n < k)%Z -> fails w c [d] (lit "Invalid time value chosen") (Some w1)
  | x_apply_bad o w1 d f w2 w3 : c_code c = APPLY_OP -> c_d1 c = None -> finds c w o w1 -> e_decode E d w1 = Good f w2 -> rejects o f w2 w3 ->
      fails w c [d] (lit "Operator initialized with incompatible wfs") (Some w3)
  | x_apply_fail o w1 d f w2 w3 m w4 : c_code c = APPLY_OP -> c_d1 c = None -> finds c w o w1 -> e_decode E d w1 = Good f w2 ->
      accepts o f w2 w3 -> e_apply E o (Some f) w3 = Err m w4 -> fails w c [d] m None
  | x_expec_bad o w1 d f w2 w3 : c_code c = GET_EXPEC -> finds c w o w1 -> e_decode E d w1 = Good f w2 -> rejects o f w2 w3 ->
      fails w c [d] (lit "Operator initialized with incompatible wfs") (Some w3).

  (** A sequence of commands that work, one after the other *)
  Inductive all_succeed : world -> list (command * list data) -> list answer -> world -> Prop :=
  | all_nil w : all_succeed w [] [] w
  | all_cons w c ds a w1 l al w' : succeeds w c ds a w1 -> all_succeed w1 l al w' -> all_succeed w ((c, ds) :: l) (a :: al) w'.
  (** the client's side of it, followed by QUIT *)
  Fixpoint session (l : list (command * list data)) : client data num (list answer) :=
    match l with
    | [] => Snd (MCmd data (plain num QUIT)) (Ret [])
    | (c, ds) :: t => after (talk c ds) (fun a => after (session t) (fun al => Ret (a :: al)))
    end.

  (** The claim: every command is answered, nothing is left over, and the server is either ready for the next command
      or has ended after the answer. *)
  Definition answered (f : cfg c2s s2c (world * bool) answer) : Prop :=
    (exists a, p2 f = Ret a) /\ to1 f = [] /\ to2 f = [] /\ ((exists w, p1 f = Ret w) \/ p1 f = Raise).
End Talk.
