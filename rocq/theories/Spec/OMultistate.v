(** What a multi state operator is meant to be: a matrix of operators acting on the vector of states. *)
From Coq Require Import List ZArith Bool.
From Verif Require Import Base Arrays Algebra Model.Operators Spec.Operators Model.Multistate Model.OMultistate.
Import ListNotations.
Open Scope Z_scope.

Section S.
  Variable R : cring.
  Variable M : cmodule R.
  (** The mathematical matrix: [None] is the zero operator, except on the diagonal with [unity]. *)
  Definition row (G : Z -> Z -> option (M -> M)) (unity : bool) (n : Z) (psi : Z -> M) (i : Z) : M :=
    msum R M (map (fun j => match G i j with Some f => f (psi j) | None => if (i =? j) && unity then psi j else m0 end) (upto 0 n)).

  Variable A : Type.
  Variable a_act : A -> acts R M.
  (** The table contains implementations of the operators of the matrix. *)
  Definition represents (m : Z -> Z -> option A) (n : Z) (G : Z -> Z -> option (M -> M)) : Prop :=
    forall i j, 0 <= i < n -> 0 <= j < n -> match m i j, G i j with Some a, Some f => implements R M (a_act a) f | None, None => True | _, _ => False end.

  (** Operators made by the interface: non negative indices. *)
  Inductive mcall := MAdd (o : A) (row col : Z) | MParams (nonherm unity : bool) (states : option Z) | MInit (states : Z).
  Definition mlegal (c : mcall) : Prop := match c with MAdd _ r c => 0 <= r /\ 0 <= c | MParams _ _ (Some n) => 0 <= n | _ => True end.
  Definition mstep (s : oms A) (c : mcall) : outcome (oms A) :=
    match c with
    | MAdd o r c => let* x := o_add A s o r c in Ok (snd x)
    | MParams h u st => o_params A s h u st
    | MInit st => o_init A s st
    end.
  Inductive made_ms : oms A -> Prop :=
  | mm_new : made_ms (o_new A)
  | mm_step s c s' : made_ms s -> mlegal c -> mstep s c = Ok s' -> made_ms s'.
  (** Adding and setting parameters ends with the initialisation. *)
  Inductive setup : oms A -> Prop :=
  | su_new : setup (o_new A)
  | su_step s c s' : setup s -> mlegal c -> match c with MInit _ => False | _ => True end -> mstep s c = Ok s' -> setup s'.
End S.
