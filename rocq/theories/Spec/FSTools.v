(** What the file system helpers should do, written without the code. *)
From Coq Require Import Ascii String List Bool.
From Verif Require Import Base Model.FSTools.
Import ListNotations.

(** every node lies in a directory *)
Definition tree (f : fsys) : Prop := forall x p k, look f (x :: p) = Some k -> look f p = Some Dir.
(** names of nodes are proper names *)
Definition proper (c : str) : Prop := c <> [] /\ c <> lit "." /\ c <> lit "..".
(** g is f with some more directories *)
Definition grown (f g : fsys) : Prop := forall p, look g p = look f p \/ look f p = None /\ look g p = Some Dir.
(** the path s leads to a node *)
Definition leads (cwd : node) (f : fsys) (s : str) (k : kind) : Prop := exists p, stat cwd f s = Found p /\ look f p = Some k.
(** a path without "." and ".." *)
Definition plain (s : str) : Prop := forall c, In c (comps s) -> c <> lit "." /\ c <> lit "..".
(** the node such a path stands for *)
Definition named (cwd : node) (s : str) : node :=
  rev (filter (fun c => negb (str_eqb c [])) (comps s)) ++ start cwd s.
(** q is p or above p *)
Definition above (q p : node) : Prop := exists l, p = l ++ q.
