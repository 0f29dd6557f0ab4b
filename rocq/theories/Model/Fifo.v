(** Model of the FIFOs of the interactive mode, src/tools/FIFO.cpp and FIFO.h, which CmdHandler.cpp:254-278 makes and deletes.

    The file system tells for each name whether there is something.  [may n]: mkfifo(3) may make n if nothing has this name;
    [opens n]: an existing n can be opened; what exists can be removed.  [tmp]: the directory of the parameter tmpdir or of TMPDIR, empty if there is none. *)
From Coq Require Import Ascii String List ZArith Lia Bool Arith.
From Verif Require Import Base Arrays.
Import ListNotations.
Open Scope Z_scope.

Inductive node := Pipe | Other.
Definition fs := str -> option node.
Definition set (s : fs) (n : str) (v : option node) : fs := fun m => if str_eq_dec m n then v else s m.
Definition rx (n : str) : str := n ++ lit "rx".
Definition tx (n : str) : str := n ++ lit "tx".
(** FIFO.h:20: the template, as it is *)
Definition template : str := lit "QDng_cmd_XXXXXX".

Section Fifo.
  Variables (may opens : str -> bool).
  Definition mkfifo (s : fs) (n : str) : fs * bool :=
    match s n with Some _ => (s, false) | None => if may n then (set s n (Some Pipe), true) else (s, false) end.
  (** FIFO.cpp:27-53; the constructor FIFO.cpp:85-90.  false: an exception *)
  Definition make (s : fs) (n : str) : fs * bool :=
    let '(s, ok) := mkfifo s (rx n) in
    if negb ok then (s, false) else
    let '(s, ok) := mkfifo s (tx n) in
    if negb ok then (s, false) else
    if negb (opens (rx n)) then (s, false) else
    if negb (opens (tx n)) then (s, false) else (s, true).
  (** FIFO.cpp:58-80 *)
  Definition default_name (tmp : str) : str := match tmp with [] => template | _ => tmp ++ lit "/" ++ template end.
  Definition make_default (s : fs) (tmp : str) : fs * bool := make s (default_name tmp).
  (** fstools.cpp:86-100 *)
  Definition remove (s : fs) (n : str) : fs * bool := match s n with Some _ => (set s n None, true) | None => (s, false) end.
  (** FIFO.cpp:92-100; false: an exception leaves the destructor and the program is terminated *)
  Definition delete (s : fs) (n : str) : fs * bool :=
    let '(s, ok) := remove s (rx n) in
    if negb ok then (s, false) else remove s (tx n).

  (** programs: the objects by their names; others may make and remove files *)
  Inductive act := New (n : str) | NewDefault (tmp : str) | Del (n : str) | Put (n : str) | Take (n : str).
  Inductive end_ := Alive (s : fs) (live : list str) | Dead (s : fs).
  Fixpoint drop (n : str) (l : list str) : list str := match l with [] => [] | x :: l => if str_eq_dec x n then l else x :: drop n l end.
  Definition born (s : fs) (live : list str) (n : str) : fs * list str := let '(s, ok) := make s n in (s, if ok then n :: live else live).
  Fixpoint run (acts : list act) (s : fs) (live : list str) : end_ :=
    match acts with
    | [] => Alive s live
    | New n :: acts => let '(s, live) := born s live n in run acts s live
    | NewDefault tmp :: acts => let '(s, live) := born s live (default_name tmp) in run acts s live
    | Del n :: acts =>
      if in_dec str_eq_dec n live then let '(s, ok) := delete s n in if ok then run acts s (drop n live) else Dead s
      else run acts s live
    | Put n :: acts => run acts (match s n with None => set s n (Some Other) | _ => s end) live
    | Take n :: acts => run acts (set s n None) live
    end.
End Fifo.
