(** What wave function definitions are meant to load. *)
From Coq Require Import List ZArith Bool.
From Verif Require Import Base Arrays Algebra Spec.Operators Model.Chain.
Import ListNotations.
Open Scope Z_scope.

Section S.
  Variable R : cring.
  Variable M : cmodule R.
  Variable norm : M -> M.
  Variable phase root : R -> R.
  Notation attrs := (attrs R).
  (** the factor of a definition: coefficient (1 if none is given) *)
  Definition factor (a : attrs) : R := match a_coeff R a with Some c => c | None => match a_coeff2 R a with Some c => root c | None => c1 end end.
  Definition dressed (a : attrs) (x : M) : M :=
    mscale (factor a) (mscale (match a_phase R a with Some p => phase p | None => c1 end) (if a_norm R a then norm x else x)).
  Fixpoint meant (d : wfdef R M) : M :=
    match d with
    | Single _ _ a x => dressed a x
    | LC _ _ a l => dressed a (msum R M (map meant l))
    end.
  (** every linear combination in the definition has at least one member *)
  Fixpoint inhabited (d : wfdef R M) : bool :=
    match d with Single _ _ _ _ => true | LC _ _ _ l => negb (match l with [] => true | _ => false end) && forallb inhabited l end.
  (** a property of the attributes of all definitions, and of all linear combinations *)
  Fixpoint all_attrs (P : attrs -> Prop) (PL : attrs -> Prop) (d : wfdef R M) : Prop :=
    match d with
    | Single _ _ a _ => P a
    | LC _ _ a l => P a /\ PL a /\ (fix all l := match l with [] => True | d :: t => all_attrs P PL d /\ all t end) l
    end.
  (** no zero coefficient is given *)
  Definition nonzero (a : attrs) : Prop := (a_coeff R a = None /\ a_coeff2 R a = None) \/ factor a <> c0.
End S.

(** the state at a place of a multi state wave function *)
Definition slot_at {M : Type} (slots : list (option M)) (k : nat) : option M := match nth_error slots k with Some o => o | None => None end.
