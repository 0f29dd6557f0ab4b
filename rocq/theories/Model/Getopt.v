(** Model of src/tools/Getopt.cpp: the option tables and their queries.

    getopt(3) itself is outside the model: it delivers the recognised options with their arguments in order, the
    permuted argument vector and [optind] (Getopt.cpp:46-58).  Entries with an empty value that operator[] inserts in
    parameter_map, req_map and default_map cannot be observed and are left out; those in value_map are modelled. *)
From Coq Require Import Ascii String List NArith ZArith Lia Bool Arith.
From Verif Require Import Base Model.Params.
Import ListNotations.

Record gopt := mkG {
  values : list (ascii * str);
  helps : list (ascii * str);
  pars : list (ascii * str);
  reqs : list (ascii * bool);
  defs : list (ascii * str);
  argv : list str;
  optind : nat }.

Definition getd (m : list (ascii * str)) (c : ascii) : str := match mget acmp m c with Some v => v | None => [] end.
Definition getb (m : list (ascii * bool)) (c : ascii) : bool := match mget acmp m c with Some v => v | None => false end.

(** operator[] read access: insert an empty entry if there is none *)
Definition touch (m : list (ascii * str)) (c : ascii) : list (ascii * str) :=
  match mget acmp m c with Some _ => m | None => mset acmp m c [] end.

Definition with_values (g : gopt) (v : list (ascii * str)) : gopt :=
  mkG v (helps g) (pars g) (reqs g) (defs g) (argv g) (optind g).

(** Getopt.cpp:101-105 *)
Definition set_help (g : gopt) (c : ascii) (help : str) : gopt :=
  mkG (values g) (mset acmp (helps g) c help) (mset acmp (pars g) c []) (reqs g) (defs g) (argv g) (optind g).

(** Getopt.cpp:117-123 *)
Definition set_help_par (g : gopt) (c : ascii) (par : str) (required : bool) (help value : str) : gopt :=
  mkG (values g) (mset acmp (helps g) c help) (mset acmp (pars g) c par) (mset acmp (reqs g) c required)
      (if required then defs g else mset acmp (defs g) c value) (argv g) (optind g).

(** Getopt.cpp:21-24 *)
Definition new_getopt : gopt := set_help (mkG [] [] [] [] [] [] 0) "h"%char (lit "Show this help").

(** Getopt.cpp:43-58: store what getopt(3) reports *)
Definition parse_args (g : gopt) (opts : list (ascii * str)) (argv : list str) (oi : nat) : gopt :=
  mkG (fold_left (fun m o => mset acmp m (fst o) (snd o)) opts (values g))
      (helps g) (pars g) (reqs g) (defs g) argv oi.

(** Getopt.cpp:205-210 *)
Definition present (g : gopt) (c : ascii) : bool := match mget acmp (values g) c with Some _ => true | None => false end.

(** Getopt.cpp:256-262 *)
Definition get_string (g : gopt) (c : ascii) : gopt * str :=
  let g' := with_values g (touch (values g) c) in
  (g', match getd (values g') c with [] => getd (defs g) c | v => v end).

(** Getopt.cpp:217-223 (the first character of an empty string is NUL) *)
Definition get_char (g : gopt) (c : ascii) : gopt * ascii :=
  let '(g', s) := get_string g c in (g', hd nul s).

(** Getopt.cpp:230-236 *)
Definition get_int_opt (g : gopt) (c : ascii) (old : Z) : gopt * outcome Z :=
  let '(g', s) := get_string g c in
  (g', let* r := scan_int s in Ok (match r with Some z => z | None => old end)).

(** Getopt.cpp:184-193: loop over the declared options *)
Fixpoint check_loop (g : gopt) (l : list ascii) : gopt * bool :=
  match l with
  | [] => (g, true)
  | c :: t =>
    let par := getd (pars g) c in
    if match par with [] => false | _ => getb (reqs g) c end then
      (* 185: value_map[c].empty() *)
      let g1 := with_values g (touch (values g) c) in
      match getd (values g1) c with
      | [] => (g1, false)
      | _ => check_loop g1 t
      end
    else
      match par, getd (defs g) c with
      | [], _ :: _ => check_loop (with_values g (mset acmp (values g) c (getd (defs g) c))) t  (* 190-192 *)
      | _, _ => check_loop g t
      end
  end.

(** Getopt.cpp:176-195 *)
Definition check_options (g : gopt) : gopt * bool :=
  if present g "h"%char then (g, false) else check_loop g (map fst (helps g)).

Inductive query := QPresent (c : ascii) | QString (c : ascii) | QChar (c : ascii) | QInt (c : ascii) (old : Z) | QCheck.

Definition qstep (g : gopt) (q : query) : gopt :=
  match q with
  | QPresent _ => g
  | QString c => fst (get_string g c)
  | QChar c => fst (get_char g c)
  | QInt c o => fst (get_int_opt g c o)
  | QCheck => fst (check_options g)
  end.
Definition qrun (g : gopt) (qs : list query) : gopt := fold_left qstep qs g.

(** Getopt.cpp:291-299 *)
Definition non_option (g : gopt) (number : nat) : option str :=
  if optind g + number <? length (argv g) then Some (nth (optind g + number) (argv g) []) else None.

(** Getopt.cpp:275-282: buffer content, at most len characters (no terminator if the argument is longer); an index
    beyond argc is read outside the argument vector. *)
Definition non_option_buf (g : gopt) (number len : nat) : outcome (option str) :=
  if optind g + number <? length (argv g)
  then let i := length (values g) + 1 + number in
       if i <? length (argv g) then Ok (Some (firstn len (nth i (argv g) []))) else UB
  else Ok None.
