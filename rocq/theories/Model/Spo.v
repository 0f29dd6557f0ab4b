(** Model of the split operator propagator: src/qdlib/OSPO.cpp, and of the diagonalization of 2x2 matrices it uses,
    src/math/math_functions.h:123-183.  Floating point numbers are replaced by an ordered field; [sq] is sqrt, [cexp] is cexp. *)
From Coq Require Import List ZArith Lia Bool Arith.
From Verif Require Import Base Arrays Algebra Complex Ordered.
Import ListNotations.

Section Diag.
  Variable F : ofld.
  Variable sq : F -> F.
  Open Scope cr_scope.
  Definition two : F := 1 + 1.
  Definition half : F := 1 / two.

  (** math_functions.h:133-138; 0.5 * x is written as multiplication by one half *)
  Definition root (m1 m2 m12 : F) : F := sq ((m1 - m2) * (m1 - m2) + two * two * m12 * m12).
  Definition evals (m1 m2 m12 : F) : F * F :=
    (half * (m1 + m2 - root m1 m2 m12), half * (m1 + m2 + root m1 m2 m12)).

  (** eigenvalues, and the matrix evec[2][2] *)
  Record eig := mkEig { e_0 : F; e_1 : F; v_00 : F; v_01 : F; v_10 : F; v_11 : F }.

  (** math_functions.h:155-161 *)
  Definition theta (m1 m2 m12 : F) : F := (m2 - m1) / (two * m12).
  Definition sgn (x : F) : F := match ocmp x 0 with inleft (left _) => - (1) | _ => 1 end.
  Definition tan (m1 m2 m12 : F) : F :=
    let th := theta m1 m2 m12 in sgn th / (oabs th + sq (th * th + 1)).

  (** math_functions.h:149-183 *)
  Definition diag22 (m1 m2 m12 : F) : eig :=
    match ocmp m12 0 with
    | inleft (right _) => mkEig m1 m2 1 0 0 1
    | _ =>
      let (e0, e1) := evals m1 m2 m12 in
      let t := tan m1 m2 m12 in
      let cos := 1 / sq (t * t + 1) in
      match ocmp m2 m1 with
      | inleft (left _) => mkEig e0 e1 (t * cos) cos cos (- t * cos)
      | _ => mkEig e0 e1 cos (t * cos) (- t * cos) cos
      end
    end.

  Variable cexp : Cx F -> Cx F.
  (** OSPO.cpp:400-404: the two states at one grid point; [c] is _cV *)
  Definition couple (c : Cx F) (m1 m2 m12 : F) (w : Cx F * Cx F) : Cx F * Cx F :=
    let E := diag22 m1 m2 m12 in
    let b0 := cexp (cx_of (e_0 E) * c) * (cx_of (v_00 E) * fst w + cx_of (v_10 E) * snd w) in
    let b1 := cexp (cx_of (e_1 E) * c) * (cx_of (v_01 E) * fst w + cx_of (v_11 E) * snd w) in
    (cx_of (v_00 E) * b0 + cx_of (v_01 E) * b1, cx_of (v_10 E) * b0 + cx_of (v_11 E) * b1).
End Diag.
Arguments mkEig {F}. Arguments e_0 {F}. Arguments e_1 {F}. Arguments v_00 {F}. Arguments v_01 {F}. Arguments v_10 {F}. Arguments v_11 {F}.
