(** Model of the file system helpers FS (src/tools/fstools.cpp) over a POSIX file system of files and directories without symbolic
    links.  Names of any length are allowed, errors other than missing or wrong nodes and missing permission do not occur. *)
From Coq Require Import Ascii String List Lia Bool Arith.
From Verif Require Import Base.
Import ListNotations.

(** ** The file system *)
Inductive kind := Dir | File.
(** a node: the names on the way up, the root is [] *)
Definition node := list str.
Definition node_dec : forall a b : node, {a = b} + {a <> b} := list_eq_dec str_eq_dec.
(** existing nodes apart from the root *)
Definition fsys := list (node * kind).
Fixpoint assoc (f : fsys) (p : node) : option kind :=
  match f with [] => None | (q, k) :: t => if node_dec p q then Some k else assoc t p end.
Definition look (f : fsys) (p : node) : option kind := match p with [] => Some Dir | _ => assoc f p end.
Definition slash : ascii := "/"%char.
(** the components of a path; slashes in a row give empty ones *)
Fixpoint comps (s : str) : list str :=
  match s with
  | [] => [[]]
  | c :: t => if Ascii.eqb c slash then [] :: comps t else match comps t with h :: r => (c :: h) :: r | [] => [[c]] end
  end.
Inductive walked := Found (p : node) | Missing | NotDir.
(** path resolution: every component is looked up in a directory *)
Fixpoint walk (f : fsys) (cur : node) (l : list str) : walked :=
  match l with
  | [] => Found cur
  | c :: t =>
    match look f cur with
    | Some Dir =>
      if str_eqb c [] || str_eqb c (lit ".") then walk f cur t
      else if str_eqb c (lit "..") then walk f (tl cur) t
      else match look f (c :: cur) with None => Missing | Some _ => walk f (c :: cur) t end
    | _ => NotDir
    end
  end.
Section FSTools.
  (** the working directory; whether nodes may be made or removed in a directory *)
  Variable cwd : node.
  Variable perm : node -> bool.
  Definition start (s : str) : node := match s with c :: _ => if Ascii.eqb c slash then [] else cwd | [] => cwd end.
  (** stat(2) *)
  Definition stat (f : fsys) (s : str) : walked := match s with [] => Missing | _ => walk f (start s) (comps s) end.
  Fixpoint dropw {A} (b : A -> bool) (l : list A) : list A := match l with x :: t => if b x then dropw b t else l | [] => [] end.
  (** directory and last name of a path; [None]: there are only slashes *)
  Definition split_last (s : str) : option (list str * str) :=
    match dropw (fun c => str_eqb c []) (rev (comps s)) with [] => None | x :: t => Some (rev t, x) end.
  Definition dots (c : str) : bool := str_eqb c (lit ".") || str_eqb c (lit "..").
  (** mkdir(2): true if it returns 0 *)
  Definition mkdir (f : fsys) (s : str) : fsys * bool :=
    match s, split_last s with
    | _ :: _, Some (l, x) =>
      match walk f (start s) l with
      | Found p =>
        match look f p with
        | Some Dir => if dots x then (f, false) else
            match look f (x :: p) with Some _ => (f, false) | None => if perm p then ((x :: p, Dir) :: f, true) else (f, false) end
        | _ => (f, false)
        end
      | _ => (f, false)
      end
    | _, _ => (f, false)
    end.
  Definition up_dec (p : node) (e : node * kind) : bool := match fst e with _ :: q => if node_dec q p then true else false | [] => false end.
  Definition del (f : fsys) (p : node) : fsys := filter (fun e => if node_dec (fst e) p then false else true) f.
  (** remove(3): a file (no slash behind it) or an empty directory, not "." or ".." or the root *)
  Definition rm (f : fsys) (s : str) : fsys * bool :=
    match s, split_last s with
    | _ :: _, Some (l, x) =>
      match walk f (start s) l with
      | Found p =>
        match look f p with
        | Some Dir => if dots x then (f, false) else
            match look f (x :: p) with
            | None => (f, false)
            | Some File => if Ascii.eqb (last s slash) slash then (f, false) else if perm p then (del f (x :: p), true) else (f, false)
            | Some Dir => if existsb (up_dec (x :: p)) f then (f, false) else if perm p then (del f (x :: p), true) else (f, false)
            end
        | _ => (f, false)
        end
      | _ => (f, false)
      end
    | _, _ => (f, false)
    end.

  (** ** FS *)
  (** the characters before the last slash *)
  Definition before_last (r : str) : str := match dropw (fun c => negb (Ascii.eqb c slash)) r with _ :: t => rev t | [] => [] end.
  (** fstools.cpp:18-32: dir[length - 1] of an empty string is out of bounds *)
  Definition strip_last (s : str) : outcome str :=
    match dropw (fun c => Ascii.eqb c slash) (rev s) with [] => UB | r => Ok (before_last r) end.
  (** fstools.cpp:42-81; [n] bounds the depth of the recursion, the length of the path is enough *)
  Fixpoint create (n : nat) (f : fsys) (s : str) : fsys * outcome unit :=
    if str_eqb s [] || str_eqb s (lit "./") then (f, Ok tt) else
    match stat f s with
    | Missing =>
      match strip_last s, n with
      | Ok u, S n =>
        let '(f, r) := create n f u in
        match r with
        | Ok _ => let '(f, b) := mkdir f s in (f, if b then Ok tt else Throw)
        | r => (f, r)
        end
      | Throw, _ => (f, Throw)
      | _, _ => (f, UB)
      end
    | Found p => (f, match look f p with Some Dir => Ok tt | _ => Throw end)
    | NotDir => (f, Throw)
    end.
  Definition create_dir (f : fsys) (s : str) : fsys * outcome unit := create (length s) f s.
  (** fstools.cpp:84-97 *)
  Definition remove (f : fsys) (s : str) : fsys * outcome unit := let '(f, b) := rm f s in (f, if b then Ok tt else Throw).
  (** fstools.cpp:100-113 *)
  Definition is_dir (f : fsys) (s : str) : outcome bool :=
    match stat f s with Found p => Ok (match look f p with Some Dir => true | _ => false end) | _ => Throw end.
  (** fstools.cpp:115-130 *)
  Definition is_file (f : fsys) (s : str) : outcome bool :=
    match stat f s with Found p => Ok (match look f p with Some File => true | _ => false end) | Missing => Ok false | NotDir => Throw end.
End FSTools.
