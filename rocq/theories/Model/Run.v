(** Model of running an input document: src/tools/XmlNode.cpp, src/CmdHandler.cpp:76-238 (RunXML) and src/qdng.cpp:156-347 (main).

    The document is the tree libxml2 builds.  Loading a definition and running a program are oracles on the state (the global parameters
    and everything else), which succeed, throw an exception or are undefined.  Logging and timing are left out. *)
From Coq Require Import Ascii String List NArith ZArith Lia Bool Arith.
From Verif Require Import Base Model.Params.
Import ListNotations.

(** * XmlNode *)
(** elements and other nodes: comments, texts, processing instructions *)
Inductive xml := Element (name : str) (attrs : list (str * str)) (children : list xml) | Other.
(** An XmlNode is a position among siblings: the node and those behind it, nothing for NULL. *)
Definition cursor := list xml.
(** the loops of XmlNode.cpp:47-51, 75-78 *)
Fixpoint skip (l : cursor) : cursor := match l with Other :: t => skip t | _ => l end.
(** XmlNode.cpp:42-56 *)
Definition next_child (n : xml) : option cursor := match n with Element _ _ (c :: t) => Some (skip (c :: t)) | _ => None end.
(** XmlNode.cpp:130-156 *)
Definition attributes (l : list (str * str)) : container := fold_left (fun c a => set_value c (fst a) (snd a) t_string) l empty_c.

(** * RunXML *)
Inductive prog := Propa | Filter | Eigen | Oct | Cfunc.
Inductive action := LoadPropagator (n : xml) | LoadOperator (n : xml) | LoadWave (n : xml) | Run (p : prog) (dir : str) (n : xml).
(** CmdHandler.cpp:187-216 *)
Definition prog_of (name : str) : option prog :=
  if str_eqb name (lit "propa") then Some Propa else if str_eqb name (lit "filter") then Some Filter else
  if str_eqb name (lit "eigen") then Some Eigen else if str_eqb name (lit "oct") then Some Oct else
  if str_eqb name (lit "cfunc") then Some Cfunc else None.
Definition ends_slash (d : str) : bool := match rev d with c :: _ => Ascii.eqb c "/" | [] => false end.

Section Run.
  Variable W : Type.
  Record state := mkS { s_gp : container; s_world : W }.
  Inductive res := Done (s : state) | Failed (s : state) | Broken.
  Variable act : action -> state -> res.
  Definition seq (r : res) (k : state -> res) : res := match r with Done s => k s | _ => r end.

  (** CmdHandler.cpp:128-144; NextNode steps over everything that is not an element *)
  Fixpoint op_loop (l : cursor) (s : state) : res :=
    match l with
    | [] => Done s
    | Other :: t => op_loop t s
    | Element n a c :: t =>
        if str_eqb n (lit "udef") then seq (act (LoadPropagator (Element n a c)) s) (op_loop t)
        else if str_eqb n (lit "opdef") then seq (act (LoadOperator (Element n a c)) s) (op_loop t)
        else Failed s
    end.
  (** CmdHandler.cpp:160-174 *)
  Fixpoint wf_loop (l : cursor) (s : state) : res :=
    match l with
    | [] => Done s
    | Other :: t => wf_loop t s
    | Element n a c :: t => if str_eqb n (lit "wfdef") then seq (act (LoadWave (Element n a c)) s) (wf_loop t) else Failed s
    end.
  (** CmdHandler.cpp:183-236 *)
  Fixpoint prog_loop (dir : str) (l : cursor) (s : state) : res :=
    match l with
    | [] => Done s
    | Other :: t => prog_loop dir t s
    | Element n a c :: t => match prog_of n with Some p => seq (act (Run p dir (Element n a c)) s) (prog_loop dir t) | None => Failed s end
    end.
  (** the name of the node; the position is NULL: undefined *)
  Definition name_of (l : cursor) : option str := match l with [] => None | Element n _ _ :: _ => Some n | Other :: _ => Some (lit "comment") end.
  Definition children_loop (loop : cursor -> state -> res) (l : cursor) (s : state) : res :=
    match l with
    | [] => Broken
    | n :: _ => match next_child n with None => Done s | Some c => loop c s end
    end.
  (** CmdHandler.cpp:123-181 *)
  Definition defs_and_progs (dir : str) (l : cursor) (s : state) : res :=
    match name_of l with
    | None => Broken
    | Some n =>
        let wfs l s :=
          match name_of l with
          | Some n => if str_eqb n (lit "wfdefs") then seq (children_loop wf_loop l s) (prog_loop dir (skip (tl l))) else prog_loop dir l s
          | None => prog_loop dir l s
          end in
        if str_eqb n (lit "opdefs") then seq (children_loop op_loop l s) (wfs (skip (tl l))) else wfs l s
    end.
  Definition multi (n : str) : bool := (str_eqb n (lit "multi") || str_eqb n (lit "qdng"))%bool.
  (** CmdHandler.cpp:93-113: of the directory "" the character in front is accessed *)
  Definition run_at (dir0 : str) (l : option cursor) (s : state) : res :=
    match l with
    | None => Failed s
    | Some l =>
        let gp := match dir0 with [] => s_gp s | _ => set_value (s_gp s) (lit "dir") dir0 t_string end in
        match get_value gp (lit "dir") with
        | None => defs_and_progs dir0 l (mkS gp (s_world s))
        | Some [] => Broken
        | Some d => let d := if ends_slash d then d else (d ++ lit "/")%list in defs_and_progs d l (mkS (set_value gp (lit "dir") d t_string) (s_world s))
        end
    end.
  (** CmdHandler.cpp:76-238: [after]: what is behind the root element *)
  Definition run_xml (dir0 : str) (root : xml) (after : list xml) (s : state) : res :=
    match root with
    | Element n a c => if multi n then run_at dir0 (next_child root) (mkS (add_c (s_gp s) (attributes a)) (s_world s)) else run_at dir0 (Some (root :: after)) s
    | Other => Broken
    end.

  (** * main *)
  (** qdng.cpp:225-234: QD_DIR, overridden by -d *)
  Definition main_dir (env opt : option str) : str := match opt with Some d => d | None => match env with Some d => d | None => [] end end.
  (** qdng.cpp:253-269 *)
  Fixpoint var_defs (l : list str) (v : list (str * str)) : option (list (str * str)) :=
    match l with
    | [] => Some v
    | d :: t => match find_char "="%char d with Some p => var_defs t (mset scmp v (firstn p d) (skipn (S p) d)) | None => None end
    end.
  (** qdng.cpp:250-346: the arguments that are not options; the exit status and the final state; [load]: reading the document with the variables given.
      Mistakes on the command line end with exit(0). *)
  Definition main (load : str -> list (str * str) -> outcome (xml * list xml)) (env opt : option str) (args : list str) (s : state) : outcome (Z * state) :=
    match args with
    | [] => Ok (0%Z, s)
    | f :: defs =>
        match var_defs defs [] with
        | None => Ok (0%Z, s)
        | Some v =>
            match load f v with
            | Throw => Ok (1%Z, s)
            | UB => UB
            | Ok (root, after) =>
                match run_xml (main_dir env opt) root after s with
                | Done s => Ok (0%Z, s)
                | Failed s => Ok (1%Z, s)
                | Broken => UB
                end
            end
        end
    end.
End Run.
Arguments Done {W}. Arguments Failed {W}. Arguments Broken {W}. Arguments mkS {W}. Arguments s_gp {W}. Arguments s_world {W}.
