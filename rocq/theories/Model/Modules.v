(** Model of the module loader: ModuleLoader<Operator> and ModuleLoader<WaveFunction> (src/modules/ModuleLoader.h,
    src/modules/ModuleLoader.cpp), the compiled in classes (src/modules/InternalMods.cpp) and the modules of the build
    (src/modules/Makefile.am), in the build without (default) and with dynamic modules (USE_DYNMODS).  Handles of libraries are not
    kept (nothing closes them); the use counter is a number of any size. *)
From Coq Require Import Ascii String List ZArith Lia Bool.
From Verif Require Import Base.
Import ListNotations.

(** What an instance function makes: an object of a class of the program, the derivative operator made as a momentum operator, or
    whatever the library number i makes *)
Inductive product := Built (c : str) | Momentum | Plug (i : nat).
(** a library that can be opened: with the function mod_instance_func, without it, or with that symbol at address 0 *)
Inductive lib := Good (i : nat) | NoSym | NullSym.
(** What the system does: wordexp(3) gives words or an error and runs the commands of command substitutions; dlopen(3); the
    environment variable QD_MOD_PATH *)
Record env := mkEnv { e_words : str -> option (list str); e_ran : str -> list str; e_open : str -> option lib; e_modpath : option str }.

(** InternalMods.cpp:67-68 *)
Definition inst_name (c : str) : str := lit "INT_" ++ c.
(** InternalMods.cpp:120-126 *)
Definition wf_classes : list str := [lit "WFGridCartesian"; lit "WFLevel"].
(** InternalMods.cpp:130-139; [None]: the alias of line 137 *)
Definition core_ops : list (option str) :=
  [Some (lit "OSum"); Some (lit "OProduct"); Some (lit "OProjection"); Some (lit "OScalar"); Some (lit "ONormalize"); None; Some (lit "OArnoldi")].
(** InternalMods.cpp:142-164 *)
Definition more_ops : list (option str) :=
  [Some (lit "OCheby"); Some (lit "OGSPO"); Some (lit "OSIL"); Some (lit "ORK4"); Some (lit "OGridNablaSq"); Some (lit "OGridPML");
   Some (lit "OGridGMat"); Some (lit "OGridPotential"); Some (lit "OGridDipole"); Some (lit "OGridRaman"); Some (lit "OGridPosition");
   Some (lit "OGridHOFD"); Some (lit "OJump"); Some (lit "OGridNabla"); Some (lit "OGridNAC"); Some (lit "OGridKick");
   Some (lit "OHermitianMatrix"); Some (lit "OMatDipole"); Some (lit "OGobbler"); Some (lit "OFlux")].
(** the text compared and what is made *)
Definition key (o : option str) : str := match o with Some c => inst_name c | None => lit "INT_OGridMomentum" end.
Definition makes (o : option str) : product := match o with Some c => Built c | None => Momentum end.
Fixpoint first (l : list (option str)) (s : str) : option product :=
  match l with [] => None | o :: t => if str_eqb s (key o) then Some (makes o) else first t s end.
(** InternalMods.cpp:120-126 *)
Definition internal_wf (s : str) : option product := first (map Some wf_classes) s.
(** InternalMods.cpp:128-167 *)
Definition internal_op (dyn : bool) (s : str) : option product := first (core_ops ++ if dyn then [] else more_ops) s.

(** which loader: ModuleLoader<WaveFunction> or ModuleLoader<Operator> *)
Inductive kind := Wave | Oper.
(** ModuleLoader.h:20-24, ModuleLoader.cpp:14-22 *)
Definition base_int (k : kind) : str := match k with Wave => lit "INT_WF" | Oper => lit "INT_O" end.
Definition base_lib (k : kind) : str := match k with Wave => lit "libqd-WF" | Oper => lit "libqd-O" end.

(** ModuleLoader.h:53-66 *)
Record loader := mkLoader { l_path : str; l_mods : list (str * (product * Z)); l_ran : list str }.
(** ModuleLoader.cpp:14-22 *)
Definition l_new : loader := mkLoader (lit "~/qdmods/") [] [].
(** _mod_map[name].Instance = ...; _mod_map[name].link_count++ *)
Definition enter (l : loader) (name : str) (p : product) : loader :=
  let c := match mget scmp (l_mods l) name with Some (_, c) => c | None => 0%Z end in
  mkLoader (l_path l) (mset scmp (l_mods l) name (p, (c + 1)%Z)) (l_ran l).
(** ModuleLoader.cpp:51-73, 81-100 *)
Definition int_name (k : kind) (name : str) : str :=
  match k with
  | Wave => if str_eqb (substr name 0 2) (lit "WF") then base_int Wave ++ skipn 2 name else base_int Wave ++ name
  | Oper => base_int Oper ++ name
  end.
Definition internal (dyn : bool) (k : kind) (name : str) : option product :=
  match k with Wave => internal_wf (int_name Wave name) | Oper => internal_op dyn (int_name Oper name) end.

(** ModuleLoader.h:140-149: path[path.size()-1] of an empty path is out of bounds *)
Definition user_path (l : loader) (path : str) : outcome loader :=
  match rev path with
  | [] => UB
  | c :: _ => Ok (mkLoader (if Ascii.eqb c "/"%char then path else path ++ lit "/") (l_mods l) (l_ran l))
  end.

Section Load.
  (** QD_SYS_MOD_PATH (configure.in:65) *)
  Variable sysdir : str.
  Variable v : env.
  (** ModuleLoader.h:116-131, 156-180: the first word of the expansion is opened; the result of wordexp is not looked at, without it
      the words are not set; no word at all opens the program itself, which has no mod_instance_func.  [Some p]: the library was
      found and p is its instance function. *)
  Definition try_lib (l : loader) (full name : str) : loader * outcome (option product) :=
    let l := mkLoader (l_path l) (l_mods l) (l_ran l ++ e_ran v full) in
    match e_words v full with
    | None => (l, UB)
    | Some [] => (l, Throw)
    | Some (w :: _) =>
      match e_open v w with
      | None => (l, Ok None)
      | Some (Good i) => (enter l name (Plug i), Ok (Some (Plug i)))
      | Some NoSym => (l, Throw)
      | Some NullSym => (enter l name (Plug 0), UB)
      end
    end.
  Fixpoint try_all (l : loader) (fulls : list str) (name : str) : loader * outcome product :=
    match fulls with
    | [] => (l, Throw)
    | s :: t =>
      match try_lib l s name with
      | (l, Ok (Some p)) => (l, Ok p)
      | (l, Ok None) => try_all l t name
      | (l, Throw) => (l, Throw)
      | (l, UB) => (l, UB)
      end
    end.
  (** ModuleLoader.h:210-235: the texts tried in this order *)
  Definition fulls (l : loader) (k : kind) (name : str) : list str :=
    (match l_path l with [] => [] | p => [p ++ base_lib k ++ name ++ lit ".so"] end)
    ++ (match e_modpath v with None => [] | Some d => [d ++ base_lib k ++ name ++ lit ".so"] end)
    ++ [sysdir ++ base_lib k ++ name ++ lit ".so"; base_lib k ++ name].
  (** ModuleLoader.h:192-243 *)
  Definition load (dyn : bool) (k : kind) (l : loader) (name : str) : loader * outcome product :=
    match (if dyn then mget scmp (l_mods l) name else None) with
    | Some (p, _) => (enter l name p, Ok p)
    | None =>
      match internal dyn k name with
      | Some p => (enter l name p, Ok p)
      | None => if dyn then try_all l (fulls l k name) name else (l, Throw)
      end
    end.
End Load.

(** Makefile.am:16-37: the modules built with USE_DYNMODS, without "libqd-O" *)
Definition shipped : list str := map lit
  ["Cheby"; "Flux"; "Gobbler"; "GridDipole"; "GridGMat"; "GridHOFD"; "GridKick"; "GridNabla"; "GridNablaSq"; "GridNAC"; "GridPML";
   "GridPosition"; "GridPotential"; "GridRaman"; "GridSum"; "GSPO"; "HermitianMatrix"; "MatDipole"; "Multistate"; "RK4"; "SIL"]%string.
(** CmdHandler.cpp:513-520: the name asked of the loader when an operator is sent *)
Definition send_name (s : str) : outcome str :=
  match s with [] => Throw | c :: t => Ok (if Ascii.eqb c "O"%char then t else s) end.
