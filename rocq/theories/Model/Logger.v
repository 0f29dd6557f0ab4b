(** Model of the logger, src/tools/Logger.cpp, one thread, without MPI.

    What leaves the logger is a list of pieces of text, each with the place it goes to.  Texts are put into the streams by [Out] (cout() << s)
    and [Dbg] (coutdbg() << s).  [opens]: a file can be opened for writing.  Counters do not overflow; sizes in Header are those of size_t. *)
From Coq Require Import Ascii String List ZArith Lia Bool Arith.
From Verif Require Import Base Arrays.
Import ListNotations.
Open Scope Z_scope.

Inductive sink := Console | File (f : str) | Stream (k : Z).
Inductive section := Chapter | Section_ | SubSection.
Definition nl : ascii := "010"%char.
Definition sp : ascii := " "%char.
Definition star : ascii := "*"%char.

(** Logger.h:24-44, Logger.cpp:24-31 *)
Record log := mkLog { l_out : str; l_dbg : str; l_last : Z; l_sup : bool; l_debug : bool; l_len : Z; l_ind : Z; l_file : option str; l_sink : sink }.
Definition new_log : log := mkLog [] [] 0 false false 80 0 None Console.
Definition events := list (sink * str).

(** string::find of a newline from a position on *)
Fixpoint find_nl (s : str) (from : nat) : option nat :=
  match s with
  | [] => None
  | c :: t => match from with
              | O => if Ascii.eqb c nl then Some O else option_map S (find_nl t O)
              | S k => option_map S (find_nl t k)
              end
  end.
(** string::insert *)
Definition insert (s : str) (pos : nat) (t : str) : str := firstn pos s ++ t ++ skipn pos s.
(** Logger.cpp:46-55; UB: out of fuel *)
Fixpoint indent_loop (n : nat) (sind s : str) (spos : option nat) : outcome str :=
  match n with
  | O => UB
  | S n =>
    match spos with
    | None => Ok s
    | Some p =>
      if (p + 1 <? length s)%nat then
        let s := insert s (p + 1) sind in
        if (length s <=? p + 1)%nat then indent_loop n sind s None else indent_loop n sind s (find_nl s (p + 1))
      else Ok s
    end
  end.
(** Logger.cpp:36-56 *)
Definition indent_string (ind : Z) (s : str) : outcome str :=
  let sind := repeat sp (Z.to_nat (ind * 2)) in
  let t := insert s 0 sind in
  indent_loop (length s + 2) sind t (find_nl t 0).

(** Logger.cpp:173-218 *)
Definition flush (l : log) : outcome (log * events) :=
  if l_sup l then Ok (mkLog [] [] (l_last l) (l_sup l) (l_debug l) (l_len l) (l_ind l) (l_file l) (l_sink l), [])
  else
    let* e1 := (if l_last l =? 1 then let* s := indent_string (l_ind l) (l_out l) in Ok [(l_sink l, s)] else Ok []) in
    let out := if l_last l =? 1 then [] else l_out l in
    let* e2 := (if l_last l =? 2 then let* s := indent_string (l_ind l) (l_dbg l) in Ok (if l_debug l then [(l_sink l, s)] else []) else Ok []) in
    let dbg := if l_last l =? 2 then [] else l_dbg l in
    Ok (mkLog out dbg 0 (l_sup l) (l_debug l) (l_len l) (l_ind l) (l_file l) (l_sink l), e1 ++ e2).

(** Logger.cpp:223-258: the differences are those of unsigned long, [u64]; one piece for what goes directly to the stream *)
Definition u64 (z : Z) : Z := z mod 2 ^ 64.
Definition chars (c : ascii) (n : Z) : str := repeat c (Z.to_nat n).
Definition header_text (len : Z) (title : str) (ty : section) : str :=
  let half := u64 (len - zlen title) / 2 in
  match ty with
  | Chapter => [nl; nl] ++ chars star len ++ [nl] ++ chars sp half ++ title ++ [nl] ++ chars star len ++ [nl; nl]
  | Section_ => [nl; star] ++ chars star (u64 (half - 2)) ++ [sp] ++ title ++ [sp] ++ chars star (u64 (half - 2)) ++ [nl; nl]
  | SubSection => [star; sp] ++ title ++ [nl; nl]
  end.

Inductive op := Out (s : str) | Dbg (s : str) | Flush | Supress (b : bool) | Debug (b : bool) | SetIndent (n : Z) | IndentInc | IndentDec | SetLineLength (n : Z)
  | FileOutput (f : str) | FileClose | SetRedirect (k : Z) | ConsoleOutput | Header (title : str) (ty : section).
Section Step.
  Variable opens : str -> bool.
  Definition put_out (l : log) s := mkLog s (l_dbg l) (l_last l) (l_sup l) (l_debug l) (l_len l) (l_ind l) (l_file l) (l_sink l).
  Definition put_dbg (l : log) s := mkLog (l_out l) s (l_last l) (l_sup l) (l_debug l) (l_len l) (l_ind l) (l_file l) (l_sink l).
  Definition put_last (l : log) k := mkLog (l_out l) (l_dbg l) k (l_sup l) (l_debug l) (l_len l) (l_ind l) (l_file l) (l_sink l).
  Definition put_sup (l : log) b := mkLog (l_out l) (l_dbg l) (l_last l) b (l_debug l) (l_len l) (l_ind l) (l_file l) (l_sink l).
  Definition put_debug (l : log) b := mkLog (l_out l) (l_dbg l) (l_last l) (l_sup l) b (l_len l) (l_ind l) (l_file l) (l_sink l).
  Definition put_len (l : log) n := mkLog (l_out l) (l_dbg l) (l_last l) (l_sup l) (l_debug l) n (l_ind l) (l_file l) (l_sink l).
  Definition put_ind (l : log) n := mkLog (l_out l) (l_dbg l) (l_last l) (l_sup l) (l_debug l) (l_len l) n (l_file l) (l_sink l).
  Definition put_sink (l : log) f k := mkLog (l_out l) (l_dbg l) (l_last l) (l_sup l) (l_debug l) (l_len l) (l_ind l) f k.
  (** Logger.cpp:117-127 *)
  Definition file_close (l : log) : outcome (log * events) := let* r := flush l in Ok (put_sink (fst r) None Console, snd r).
  (** one call: the logger, what came out, and whether it returned without an exception *)
  Definition step (o : op) (l : log) : outcome (log * events * bool) :=
    match o with
    (* Logger.cpp:149-157 *)
    | Out s => let* r := (if l_last l =? 1 then Ok (l, []) else let* r := flush l in Ok (put_last (fst r) 1, snd r)) in
        Ok (put_out (fst r) (l_out (fst r) ++ s), snd r, true)
    (* Logger.cpp:164-171 *)
    | Dbg s => let* r := (if l_last l =? 2 then Ok (l, []) else let* r := flush l in Ok (put_last (fst r) 2, snd r)) in
        Ok (put_dbg (fst r) (l_dbg (fst r) ++ s), snd r, true)
    | Flush => let* r := flush l in Ok (r, true)
    (* Logger.h:97 *)
    | Supress b => let* r := flush l in Ok (put_sup (fst r) b, snd r, true)
    (* Logger.h:107 *)
    | Debug b => Ok (put_debug l b, [], true)
    (* Logger.h:122-132 *)
    | SetIndent n => if 0 <=? n then let* r := flush l in Ok (put_ind (fst r) n, snd r, true) else Ok (l, [], true)
    | IndentInc => let* r := flush l in Ok (put_ind (fst r) (l_ind l + 1), snd r, true)
    | IndentDec => if 0 <? l_ind l then let* r := flush l in Ok (put_ind (fst r) (l_ind l - 1), snd r, true) else Ok (l, [], true)
    (* Logger.h:117 *)
    | SetLineLength n => Ok (put_len l n, [], true)
    (* Logger.cpp:99-112: a stream that is open already cannot be opened *)
    | FileOutput f => match l_file l with
                      | Some _ => Ok (l, [], false)
                      | None => if opens f then Ok (put_sink l (Some f) (File f), [], true) else Ok (l, [], false)
                      end
    | FileClose => let* r := file_close l in Ok (r, true)
    (* Logger.cpp:133-136 *)
    | SetRedirect k => Ok (put_sink l (l_file l) (Stream k), [], true)
    (* Logger.cpp:141-145 *)
    | ConsoleOutput => let* r := (match l_file l with Some _ => file_close l | None => Ok (l, []) end) in Ok (put_sink (fst r) (l_file (fst r)) Console, snd r, true)
    (* Logger.cpp:223-258 *)
    | Header title ty => let* r := flush l in Ok (fst r, snd r ++ [(l_sink (fst r), header_text (l_len (fst r)) title ty)], true)
    end.
  (** a program; exceptions are handled by it *)
  Fixpoint run (ops : list op) (l : log) : outcome (log * events) :=
    match ops with
    | [] => Ok (l, [])
    | o :: ops => let* r := step o l in let* q := run ops (fst (fst r)) in Ok (fst q, snd (fst r) ++ snd q)
    end.
End Step.
