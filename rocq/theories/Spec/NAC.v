(** What the non-adiabatic coupling operator is meant to be (doc/Handbook.tex:1134-1174). *)
From Coq Require Import Ascii String List ZArith Bool.
From Verif Require Import Base Arrays Algebra Ordered Model.NAC.
Import ListNotations.
Open Scope Z_scope.

Section S.
  Variable F : ofld.
  Variable M : cmodule F.
  Variable V : Type.
  Variable mul : V -> M -> M.
  Variable D : Z -> M -> M.

  Definition linear (A : M -> M) : Prop := (forall x y, A (madd x y) = madd (A x) (A y)) /\ forall a x, A (mscale a x) = mscale a (A x).
  (** sum over the dimensions j = k, k+1, ... with their coupling functions *)
  Fixpoint over (t : Z -> V -> M) (k : Z) (l : list V) : M := match l with [] => m0 | f :: l => madd (t k f) (over t (k + 1) l) end.
  (** sign / m sum_j (f_j d/dq_j psi + 1/2 psi df_j/dq_j); [dv j f]: the derivative of a grid function *)
  Definition handbook (dv : Z -> V -> V) (a : F) (l : list V) (psi : M) : M :=
    over (fun j f => mscale a (madd (mul f (D j psi)) (mscale (half F) (mul (dv j f) psi)))) 0 l.
  (** the product rule *)
  Definition product_rule (dv : Z -> V -> V) : Prop := forall j f x, D j (mul f x) = madd (mul (dv j f) x) (mul f (D j x)).
  (** symmetrised: sign / 2m sum_j (f_j d/dq_j + d/dq_j f_j) psi *)
  Definition symmetric (a : F) (l : list V) (psi : M) : M := over (fun j f => mscale (cmul (half F) a) (madd (mul f (D j psi)) (D j (mul f psi)))) 0 l.

  (** a scalar product with values in any ring with the numbers F: real multiplications are symmetric, derivatives antisymmetric *)
  Definition scalar_product (C : cmodule F) (ip : M -> M -> C) : Prop :=
    (forall x y z, ip (madd x y) z = madd (ip x z) (ip y z)) /\ (forall x y z, ip x (madd y z) = madd (ip x y) (ip x z)) /\
    (forall a x y, ip (mscale a x) y = mscale a (ip x y)) /\ (forall a x y, ip x (mscale a y) = mscale a (ip x y)) /\
    (forall f x y, ip x (mul f y) = ip (mul f x) y) /\ (forall i x y, ip x (D i y) = mopp (ip (D i x) y)).
  (** a norm *)
  Definition norm_like (nrm : M -> F) : Prop :=
    (forall x, ole c0 (nrm x)) /\ (forall x y, ole (nrm (madd x y)) (cadd (nrm x) (nrm y))) /\ (forall a x, nrm (mscale a x) = cmul (oabs a) (nrm x)) /\ nrm m0 = c0.
End S.
