(** What an error has to tell. *)
From Coq Require Import Ascii String List ZArith.
From Verif Require Import Base Model.Exception.
Import ListNotations.
Open Scope Z_scope.

(** s occurs in m *)
Definition within (m s : str) : Prop := exists a b, m = (a ++ s ++ b)%list.
(** the texts an error was made from, in their order *)
Definition told (x : error) : list str :=
  match x with
  | Plain m => [m]
  | Memory => []
  | Missing l None => map fst l
  | Missing l (Some m) => m :: map fst l
  | ParamText m r => [m; r]
  | ParamDouble m _ | ParamInt m _ | MemSys _ m => [m]
  | IOFile m f => [m; f]
  | IOSys _ n => [n]
  | Incompatible m n => [m; n]
  | Incompatible2 m a b => [m; a; b]
  | WrongClass t n => [t; n]
  end.
(** one after the other in m *)
Fixpoint in_order (m : str) (l : list str) : Prop :=
  match l with [] => True | s :: t => exists a b, m = (a ++ s ++ b)%list /\ in_order b t end.
(** without a character *)
Definition lacks (c : ascii) (s : str) : Prop := ~ In c s.
Definition readable (x : error) : Prop := Forall (lacks "000"%char) (told x).
(** not about missing parameters *)
Definition names_none (x : error) : Prop := match x with Missing l _ => l = [] | _ => True end.
(** the system errors that have a text of their own *)
Definition io_known : list Z := [5; 13; 17; 20; 28; 30; 36].
Definition mem_known : list Z := [12; 22].
