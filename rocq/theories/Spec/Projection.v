(** What projection and jump operators are meant to do. *)
From Coq Require Import List ZArith QArith Qcanon.
From Verif Require Import Base Arrays Algebra Model.Operators Spec.Operators.
Import ListNotations.

Section S.
  Variable R : cring.
  Variable M : cmodule R.
  Variable dot : M -> M -> R.
  (** the scalar product is linear in its second argument *)
  Definition linear_dot : Prop := (forall x y z, dot x (madd y z) = cadd (dot x y) (dot x z)) /\ (forall x a y, dot x (mscale a y) = cmul a (dot x y)).
  Definition orthonormal (l : list M) : Prop := forall i j x y, nth_error l i = Some x -> nth_error l j = Some y -> dot x y = if Nat.eqb i j then c1 else c0.
  (** sum of |w><w| *)
  Definition onto (l : list M) (x : M) : M := msum R M (map (fun w => mscale (dot w x) w) l).
End S.

(** cumulative probabilities: of the first k outcomes *)
Definition cum (p : list Qc) (k : nat) : Qc := fold_right Qcplus (Q2Qc 0) (firstn k p).
