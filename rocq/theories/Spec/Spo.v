(** Eigenvectors of symmetric 2x2 matrices. *)
From Verif Require Import Base Algebra Complex Ordered.

Section Spec.
  Variable F : ofld.
  Open Scope cr_scope.
  (** (x, y) is an eigenvector of the matrix (m1 m12; m12 m2) with eigenvalue e *)
  Definition eigen (m1 m2 m12 e x y : F) : Prop := m1 * x + m12 * y = e * x /\ m12 * x + m2 * y = e * y.
  (** the same for complex vectors *)
  Definition ceigen (m1 m2 m12 e : F) (w : Cx F * Cx F) : Prop :=
    cx_of m1 * fst w + cx_of m12 * snd w = cx_of e * fst w /\ cx_of m12 * fst w + cx_of m2 * snd w = cx_of e * snd w.
  (** s is the square root of x *)
  Definition is_sqrt (x s : F) : Prop := ole 0 s /\ s * s = x.
  (** sq computes the root of the discriminant, and the roots of Jacobi's rotation, exactly; th is the cotangent of twice the
      angle, t a tangent *)
  Definition exact_root (sq : F -> F) (m1 m2 m12 : F) : Prop := m12 <> 0 ->
    is_sqrt ((m1 - m2) * (m1 - m2) + (1 + 1) * (1 + 1) * m12 * m12) (sq ((m1 - m2) * (m1 - m2) + (1 + 1) * (1 + 1) * m12 * m12)) /\
    let th := (m2 - m1) / ((1 + 1) * m12) in is_sqrt (th * th + 1) (sq (th * th + 1)).
  Definition exact_norm (sq : F -> F) (m1 m2 m12 : F) : Prop := m12 <> 0 ->
    let th := (m2 - m1) / ((1 + 1) * m12) in forall t, t * t + (1 + 1) * th * t = 1 -> is_sqrt (t * t + 1) (sq (t * t + 1)).
  Definition abs2 (z : Cx F) : F := fst z * fst z + snd z * snd z.
  Definition norm2 (w : Cx F * Cx F) : F := abs2 (fst w) + abs2 (snd w).
End Spec.
