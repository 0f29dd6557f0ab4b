(** What the Runge-Kutta and Chebyshev propagators are meant to compute. *)
From Coq Require Import List ZArith.
From Verif Require Import Base Arrays Algebra Model.Operators Spec.Operators.
Import ListNotations.

Section S.
  Variable F : fld.
  Variable M : cmodule F.
  Definition linear (h : M -> M) : Prop := (forall x y, h (madd x y) = madd (h x) (h y)) /\ forall a x, h (mscale a x) = mscale a (h x).

  Fixpoint pow (a : F) (k : nat) : F := match k with O => c1 | S k => cmul a (pow a k) end.
  Fixpoint fact (k : nat) : Z := match k with O => 1%Z | S k => (Z.of_nat (S k) * fact k)%Z end.
  (** the Taylor polynomial of exp(c h) of degree n applied to psi *)
  Definition taylor (h : M -> M) (c : F) (n : nat) (psi : M) : M :=
    msum F M (map (fun k => mscale (fdiv (pow c k) (ofZ (fact k))) (Nat.iter k h psi)) (seq 0 (S n))).

  (** The recursion of the Chebyshev propagator: phi_0 = psi, phi_1 = X psi, phi_(k+2) = 2 X phi_(k+1) + s phi_k *)
  Fixpoint phis (X : M -> M) (s : M -> M) (psi : M) (k : nat) : M * M :=
    match k with O => (psi, X psi) | S k => let '(a, b) := phis X s psi k in (b, madd (mscale (ofZ 2) (X b)) (s a)) end.
  Definition phi (X s : M -> M) (psi : M) (k : nat) : M := fst (phis X s psi k).
  (** the shifted and scaled Hamiltonian *)
  Definition shifted (h : M -> M) (off scal : F) (x : M) : M := mscale (finv scal) (madd (h x) (mopp (mscale off x))).
  (** the series with K terms *)
  Definition series (X s : M -> M) (a : nat -> F) (psi : M) (K : nat) : M := msum F M (map (fun k => mscale (a k) (phi X s psi k)) (seq 0 K)).
  (** Chebyshev polynomials of an operator: T_0 = 1, T_1 = x, T_(k+2) = 2 x T_(k+1) - T_k *)
  Fixpoint chebs (h : M -> M) (psi : M) (k : nat) : M * M :=
    match k with O => (psi, h psi) | S k => let '(a, b) := chebs h psi k in (b, madd (mscale (ofZ 2) (h b)) (mopp a)) end.
  Definition cheb (h : M -> M) (psi : M) (k : nat) : M := fst (chebs h psi k).
End S.
