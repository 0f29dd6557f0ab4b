(** Specification of the logger: every text appears once, in order, where it was sent to, each line behind its indentation. *)
From Coq Require Import Ascii String List ZArith Lia Bool Arith.
From Verif Require Import Base Arrays Model.Logger.
Import ListNotations.
Open Scope Z_scope.

(** the complete lines of a text and what is behind the last newline *)
Fixpoint lines (s : str) : list str * str :=
  match s with
  | [] => ([], [])
  | c :: t => let '(l, r) := lines t in
      if Ascii.eqb c nl then ([] :: l, r) else match l with [] => ([], c :: r) | x :: l => ((c :: x) :: l, r) end
  end.
(** every line behind k blanks *)
Definition shifted (k : Z) (s : str) : str :=
  let b := repeat sp (Z.to_nat k) in
  let '(l, r) := lines s in
  concat (map (fun x => b ++ x ++ [nl]) l) ++ match r with [] => [] | _ => b ++ r end.
(** texts of whole lines *)
Definition whole (s : str) : Prop := exists t, s = t ++ [nl].
(** what came out at a place *)
Definition at_sink (sink_eqb : sink -> bool) (e : events) : str := concat (map snd (filter (fun x => sink_eqb (fst x)) e)).
Definition text_of (e : events) : str := concat (map snd e).
(** a text that begins a line ([bol]) or goes on with one; blanks are put in front of lines only *)
Definition from (bol : bool) (k : Z) (s : str) : str := if bol then shifted k s else skipn (Z.to_nat k) (shifted k s).
(** is the next character the first one of a line *)
Definition ends (s : str) (bol : bool) : bool := match s with [] => bol | _ => Ascii.eqb (last s nl) nl end.
(** what is expected of a program: the state is indentation, debug output, place, and whether a line begins; a new place begins a line *)
Record view := mkView { v_ind : Z; v_debug : bool; v_sink : sink; v_file : bool; v_bol : bool }.
Definition new_view : view := mkView 0 false Console false true.
Definition see (opens : str -> bool) (o : op) (v : view) : view * events :=
  match o with
  | Out s => (mkView (v_ind v) (v_debug v) (v_sink v) (v_file v) (ends s (v_bol v)), [(v_sink v, from (v_bol v) (v_ind v * 2) s)])
  | Dbg s => if v_debug v then (mkView (v_ind v) (v_debug v) (v_sink v) (v_file v) (ends s (v_bol v)), [(v_sink v, from (v_bol v) (v_ind v * 2) s)]) else (v, [])
  | Debug b => (mkView (v_ind v) b (v_sink v) (v_file v) (v_bol v), [])
  | SetIndent n => (if 0 <=? n then mkView n (v_debug v) (v_sink v) (v_file v) (v_bol v) else v, [])
  | IndentInc => (mkView (v_ind v + 1) (v_debug v) (v_sink v) (v_file v) (v_bol v), [])
  | IndentDec => (mkView (Z.max 0 (v_ind v - 1)) (v_debug v) (v_sink v) (v_file v) (v_bol v), [])
  | FileOutput f => (if v_file v then v else if opens f then mkView (v_ind v) (v_debug v) (File f) true true else v, [])
  | FileClose => (mkView (v_ind v) (v_debug v) Console false true, [])
  | SetRedirect k => (mkView (v_ind v) (v_debug v) (Stream k) (v_file v) true, [])
  | ConsoleOutput => (mkView (v_ind v) (v_debug v) Console false true, [])
  | Flush | Supress _ | SetLineLength _ | Header _ _ => (v, [])
  end.
Fixpoint expected (opens : str -> bool) (ops : list op) (v : view) : events :=
  match ops with [] => [] | o :: ops => let '(v, e) := see opens o v in e ++ expected opens ops v end.
(** the same text at every place *)
Definition agree (e e' : events) : Prop := forall p, at_sink p e = at_sink p e'.
