(** What the command line says, in terms of the list of recognised options. *)
From Coq Require Import Ascii String List Bool.
From Verif Require Import Base Model.Getopt.
Import ListNotations.

Definition given (opts : list (ascii * str)) (c : ascii) : Prop := exists v, In (c, v) opts.

(** argument of the last occurrence of option c *)
Inductive last_value : list (ascii * str) -> ascii -> str -> Prop :=
| lv_here a b c v : ~ given b c -> last_value (a ++ (c, v) :: b) c v.

(** queries that read the value of c *)
Definition reads (q : query) (c : ascii) : Prop :=
  q = QString c \/ q = QChar c \/ exists o, q = QInt c o.

(** declared options that the check for missing options looks up by value *)
Definition checked (g : gopt) (c : ascii) : Prop :=
  In c (map fst (helps g)) /\
  ((getd (pars g) c <> [] /\ getb (reqs g) c = true) \/ (getd (pars g) c = [] /\ getd (defs g) c <> [])).

(** a flag (option without parameter) that nevertheless has a default value *)
Definition flag_with_default (g : gopt) (c : ascii) : Prop :=
  In c (map fst (helps g)) /\ getd (pars g) c = [] /\ getd (defs g) c <> [].

(** tables as built by the SetHelp calls before the arguments are read *)
Inductive setup : gopt -> Prop :=
| s_new : setup new_getopt
| s_help g c h : setup g -> setup (set_help g c h)
| s_help_par g c p r h v : setup g -> setup (set_help_par g c p r h v).

(** string an option reads as: its last argument unless empty, else the default *)
Definition option_text (g : gopt) (opts : list (ascii * str)) (c : ascii) (s : str) : Prop :=
  (exists v, last_value opts c v /\ v <> [] /\ s = v) \/
  ((last_value opts c [] \/ ~ given opts c) /\ s = getd (defs g) c).

(** the command line is acceptable: no help wanted and every required parameter given *)
Definition acceptable (g : gopt) (opts : list (ascii * str)) : Prop :=
  ~ given opts "h"%char /\
  forall c, In c (map fst (helps g)) -> getd (pars g) c <> [] -> getb (reqs g) c = true ->
  exists v, last_value opts c v /\ v <> [].
