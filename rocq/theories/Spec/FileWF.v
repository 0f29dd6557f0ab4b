(** What the stream format is meant to do. *)
From Coq Require Import List ZArith Bool.
From Verif Require Import Base Arrays Model.Serial Model.FileWF.
Import ListNotations.
Open Scope Z_scope.

Section S.
  Variables D C : Type.
  Variable cls : D -> C.
  Notation wf := (wf D).
  Definition is_single (w : wf) : Prop := match w with Single _ _ => True | Multi _ _ => False end.
  (** the same classes and numbers of states *)
  Fixpoint like (a b : wf) : Prop :=
    match a, b with
    | Single _ x, Single _ y => cls x = cls y
    | Multi _ l, Multi _ k => (fix go l k := match l, k with [] , [] => True | x :: t, y :: u => like x y /\ go t u | _, _ => False end) l k
    | _, _ => False
    end.
  (** multi state wave functions have states, and only the last state may be a multi state wave function again *)
  Fixpoint spine (w : wf) : Prop :=
    match w with
    | Single _ _ => True
    | Multi _ l => (fix go l := match l with [] => False | x :: t => match t with [] => spine x | _ => is_single x /\ go t end end) l
    end.
  (** the states can be added to a container: fewer than 64 and not more than one stride each *)
  Fixpoint addable (w : wf) : Prop :=
    match w with
    | Single _ _ => True
    | Multi _ l => zlen l < 64 /\ (fix go l := match l with [] => True | x :: t => addable x /\ strides D x <= 1 /\ go t end) l
    end.
  (** a list of wave functions without multi state wave functions as states *)
  Definition flat (w : wf) : Prop := match w with Single _ _ => True | Multi _ l => l <> [] /\ zlen l < 64 /\ Forall is_single l end.
End S.

Section T.
  Variables D C : Type.
  Variable cls : D -> C.
  Variable ser : D -> list byte.
  Variable des : C -> list byte -> outcome (D * list byte).
  Variable enc : header C -> list byte.
  Variable dec : list byte -> option (header C).
  (** what the headers and the data of single wave functions are trusted to do *)
  Definition coded : Prop := (forall h, dec (enc h) = Some h) /\ (forall h, zlen (enc h) < 256 ^ 4) /\
    (forall d rest, des (cls d) (ser d ++ rest) = Ok (d, rest)) /\ (forall d, 0 < zlen (ser d)).
  (** every multi state wave function has states *)
  Fixpoint stated (w : wf D) : Prop :=
    match w with
    | Single _ _ => True
    | Multi _ l => l <> [] /\ (fix go l := match l with [] => True | x :: t => stated x /\ go t end) l
    end.
  (** a stream at the beginning of a wave function *)
  Definition at_start (bytes : list byte) (m : header C) : ins C := mkIn C bytes false m.
  Definition fresh_out : out := mkOut [] false.
End T.
