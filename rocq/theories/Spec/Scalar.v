(** A constant as an operator, and unit vectors, written without the code. *)
From Coq Require Import List ZArith Bool Arith.
From Verif Require Import Base Arrays Algebra Complex Ordered.
Import ListNotations.

Section Spec.
  Variable F : ofld.
  (** b is c a, element by element *)
  Definition times (c : Cx F) (a b : list (Cx F)) : Prop := Forall2 (fun x y => y = cmul c x) a b.
  (** w sum conj(a) b *)
  Inductive product (w : F) : list (Cx F) -> list (Cx F) -> Cx F -> Prop :=
  | p_nil : product w [] [] c0
  | p_cons x y a b s : product w a b s -> product w (x :: a) (y :: b) (cadd (cx_scale w (cmul (cx_conj x) y)) s).
  (** the constant asked for: 1 and 0 by default (Handbook.tex:757-762) *)
  Definition constant (value im : option F) : Cx F := (match value with Some x => x | None => c1 end, match im with Some x => x | None => c0 end).
  Definition size2 (c : Cx F) : F := cadd (cmul (fst c) (fst c)) (cmul (snd c) (snd c)).
End Spec.
Arguments times {F}. Arguments product {F}. Arguments constant {F}. Arguments size2 {F}.
