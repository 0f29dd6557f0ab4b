(** What the documentation says about loading modules (doc/Handbook.tex, chapter "Operator modules", and the comments of
    src/modules/ModuleLoader.h), written without the code. *)
From Coq Require Import Ascii String List ZArith Bool.
From Verif Require Import Base Model.Modules.
Import ListNotations.

(** the operators of the handbook (lines 631-1237) *)
Definition handbook : list str := map lit
  ["GSPO"; "Cheby"; "SIL"; "Arnoldi"; "RK4"; "Sum"; "Product"; "Normalize"; "Scalar"; "Projection"; "Jump"; "GridNablaSq"; "GridPML";
   "GridGMat"; "GridPotential"; "GridDipole"; "GridRaman"; "Flux"; "GridNabla"; "GridMomentum"; "GridPosition"; "GridKick"; "GridNAC";
   "Gobbler"; "HermitianMatrix"; "MatDipole"]%string.
(** the object a name of the handbook stands for *)
Definition designates (name : str) (p : product) : Prop :=
  name = lit "GridMomentum" /\ p = Momentum \/ name <> lit "GridMomentum" /\ p = Built (lit "O" ++ name).
(** an expansion that leaves a text as it is *)
Definition simple (v : env) (s : str) : Prop := e_words v s = Some [s] /\ e_ran v s = [].
(** the file f in the directory d *)
Definition in_dir (d f : str) : str := match rev d with c :: _ => if Ascii.eqb c "/"%char then d ++ f else d ++ lit "/" ++ f | [] => f end.
(** where a module is searched: the user directory, the directory QD_MOD_PATH, the directory of the program, the library search path
    of the system (ModuleLoader.h:28-38) *)
Definition places (sysdir : str) (v : env) (l : loader) (file : str) : list str :=
  (match l_path l with [] => [] | p => [in_dir p file] end) ++ (match e_modpath v with None => [] | Some d => [in_dir d file] end)
  ++ [in_dir sysdir file; file].
(** the first library that can be opened is used; it must provide the interface *)
Fixpoint found (v : env) (l : list str) : outcome product :=
  match l with
  | [] => Throw
  | f :: t => match e_open v f with None => found v t | Some (Good i) => Ok (Plug i) | Some _ => Throw end
  end.
(** what happens to a loader: loads in any environment, changes of the user directory *)
Inductive act := ALoad (v : env) (name : str) | APath (p : str).
(** the loads that succeeded, first one first; [None]: undefined behaviour *)
Fixpoint history (sysdir : str) (dyn : bool) (k : kind) (l : loader) (acts : list act) : option (loader * list (str * product)) :=
  match acts with
  | [] => Some (l, [])
  | ALoad v n :: t =>
    match load sysdir v dyn k l n with
    | (l', Ok p) => match history sysdir dyn k l' t with Some (m, s) => Some (m, (n, p) :: s) | None => None end
    | (l', Throw) => history sysdir dyn k l' t
    | (_, UB) => None
    end
  | APath p :: t => match user_path l p with Ok l' => history sysdir dyn k l' t | _ => None end
  end.
Definition of_name (n : str) (s : list (str * product)) : list (str * product) := filter (fun x => str_eqb (fst x) n) s.
