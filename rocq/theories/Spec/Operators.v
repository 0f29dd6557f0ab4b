(** What sums, products and lists of operators are meant to be. *)
From Coq Require Import List ZArith.
From Verif Require Import Base Arrays Algebra Model.Operators.
Import ListNotations.
Open Scope Z_scope.

Section S.
  Variable R : cring.
  Variable M : cmodule R.

  Fixpoint msum (l : list M) : M := match l with [] => m0 | x :: t => madd x (msum t) end.
  (** The mathematical operator: sums add, products compose, the rightmost factor acting first. *)
  Fixpoint den (o : oper R M) (x : M) : M :=
    match o with
    | Leaf _ _ f _ => f x
    | Sum _ _ l => msum (map (fun o => den o x) l)
    | Prod _ _ l => fold_right (fun o y => den o y) x l
    end.
  (** An implementation of the mathematical operator [f] in all three forms: the result does not depend on what was in the
      destination or in any buffer. *)
  Definition implements (a : acts R M) (f : M -> M) : Prop :=
    (forall n d s, exists n', cp R M a n d s = Ok (f s, n')) /\
    (forall n p, exists n', ip R M a n p = Ok (f p, n')) /\
    (forall n d s, exists n', ad R M a n d s = Ok (madd d (f s), n')).
  (** No sum and no product is empty and the leaves are correct. *)
  Inductive sound : oper R M -> Prop :=
  | s_leaf f a : implements a f -> sound (Leaf R M f a)
  | s_sum l : l <> [] -> Forall sound l -> sound (Sum R M l)
  | s_prod l : l <> [] -> Forall sound l -> sound (Prod R M l).
End S.

(** Operator lists: a finite sequence of operators, some of them named. *)
Section L.
  Variable O : Type.
  Record alist := mkAL { a_ops : list O; a_names : str -> option Z }.
  Inductive lop := LAdd (o : option O) | LAddNamed (n : str) (o : option O) | LSet (i : Z) (o : O) | LSetNamed (n : str) (o : O).
  Definition lstep (l : olist O) (c : lop) : outcome (olist O) :=
    match c with
    | LAdd o => o_add O l o
    | LAddNamed n o => o_add_named O l n o
    | LSet i o => o_set O l i (Some o)
    | LSetNamed n o => o_set_named O l n (Some o)
    end.
  Definition llegal (c : lop) : Prop := match c with LSet i _ => 0 <= i | _ => True end.
  (** lists obtained from the empty one; a call that throws leaves the list as it was *)
  Inductive made : olist O -> Prop :=
  | m_new : made (o_new O)
  | m_step l c l' : made l -> llegal c -> lstep l c = Ok l' -> made l'.
End L.
