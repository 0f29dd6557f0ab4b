(** C84: the potential step of two coupled states in the split operator propagator. *)
From Coq Require Import List ZArith Lia Bool Arith Ring Field QArith Qcanon Reals.
From Verif Require Import Base Arrays Algebra Complex Ordered RealField Model.Spo Spec.Spo Proofs.Spo.
Import ListNotations.

(** Full claims.  The columns of evec are eigenvectors of the matrix, in the order of the eigenvalues. *)
Definition C84_eigen : Prop := forall (F : ofld) (sq : F -> F) (m1 m2 m12 : F), exact_root F sq m1 m2 m12 ->
  let E := diag22 F sq m1 m2 m12 in
  eigen F m1 m2 m12 (e_0 E) (v_00 E) (v_10 E) /\ eigen F m1 m2 m12 (e_1 E) (v_01 E) (v_11 E).
(** For real numbers: the step multiplies each eigenvector of the potential matrix by the exponential of its eigenvalue. *)
Definition C84_step : Prop := forall (m1 m2 m12 l : R) (c : Cx Ro) (w : Cx Ro * Cx Ro), ceigen Ro m1 m2 m12 l w ->
  couple Ro sqrt Rcexp c m1 m2 m12 w = (cmul (Rcexp (cmul (@cx_of Ro l) c)) (fst w), cmul (Rcexp (cmul (@cx_of Ro l) c)) (snd w)).

(** Both fail when the potentials are equal and the coupling is negative. *)
Theorem C84_eigen_refuted : ~ C84_eigen.
Proof. exact eigen_refuted. Qed.
Print Assumptions C84_eigen_refuted.
Theorem C84_step_refuted : ~ C84_step.
Proof. exact step_refuted. Qed.
Print Assumptions C84_step_refuted.

(** Everywhere else they hold. *)
Theorem C84_eigen_partial : forall (F : ofld) (sq : F -> F) (m1 m2 m12 : F), exact_root F sq m1 m2 m12 ->
  m1 <> m2 \/ ~ olt m12 c0 ->
  let E := diag22 F sq m1 m2 m12 in
  eigen F m1 m2 m12 (e_0 E) (v_00 E) (v_10 E) /\ eigen F m1 m2 m12 (e_1 E) (v_01 E) (v_11 E).
Proof. intros F sq m1 m2 m12 R. exact (diag_eigen F sq m1 m2 m12 (exact_12 F sq m1 m2 m12 R)). Qed.
Print Assumptions C84_eigen_partial.
Theorem C84_orthonormal : forall (F : ofld) (sq : F -> F) (m1 m2 m12 : F), exact_root F sq m1 m2 m12 -> exact_norm F sq m1 m2 m12 ->
  let E := diag22 F sq m1 m2 m12 in
  (v_00 E * v_00 E + v_10 E * v_10 E = 1 /\ v_01 E * v_01 E + v_11 E * v_11 E = 1 /\ v_00 E * v_01 E + v_10 E * v_11 E = 0)%cr.
Proof. exact diag_orthonormal. Qed.
Print Assumptions C84_orthonormal.
Theorem C84_step_partial : forall (m1 m2 m12 l : R) (c : Cx Ro) (w : Cx Ro * Cx Ro), m1 <> m2 \/ (0 <= m12)%R -> ceigen Ro m1 m2 m12 l w ->
  couple Ro sqrt Rcexp c m1 m2 m12 w = (cmul (Rcexp (cmul (@cx_of Ro l) c)) (fst w), cmul (Rcexp (cmul (@cx_of Ro l) c)) (snd w)).
Proof. exact step_real. Qed.
Print Assumptions C84_step_partial.
(** the same over any ordered field with exact roots and any exponential *)
Theorem C84_step_field_partial : forall (F : ofld) (sq : F -> F) (cexp : Cx F -> Cx F) (m1 m2 m12 l : F) (c : Cx F) (w : Cx F * Cx F),
  exact_root F sq m1 m2 m12 -> exact_norm F sq m1 m2 m12 -> m1 <> m2 \/ ~ olt m12 c0 -> ceigen F m1 m2 m12 l w ->
  couple F sq cexp c m1 m2 m12 w = (cmul (cexp (cmul (cx_of l) c)) (fst w), cmul (cexp (cmul (cx_of l) c)) (snd w)).
Proof. intros F sq cexp m1 m2 m12 l c w. exact (couple_eigen F sq m1 m2 m12 cexp c l w). Qed.
Print Assumptions C84_step_field_partial.

(** The step is linear, conserves the norm for imaginary exponents, and steps of one matrix add up and can be undone, at every point. *)
Theorem C84_linear : forall (F : ofld) (sq : F -> F) (cexp : Cx F -> Cx F) (m1 m2 m12 : F) (c a b : Cx F) (w w' : Cx F * Cx F),
  let s := couple F sq cexp c m1 m2 m12 in
  s (a * fst w + b * fst w', a * snd w + b * snd w')%cr = (a * fst (s w) + b * fst (s w'), a * snd (s w) + b * snd (s w'))%cr.
Proof. intros F sq cexp m1 m2 m12 c. exact (couple_linear F sq m1 m2 m12 cexp c). Qed.
Print Assumptions C84_linear.
Theorem C84_norm : forall (m1 m2 m12 dt : R) (w : Cx Ro * Cx Ro),
  norm2 Ro (couple Ro sqrt Rcexp (0, dt)%R m1 m2 m12 w) = norm2 Ro w.
Proof. exact norm_real. Qed.
Print Assumptions C84_norm.
Theorem C84_group : forall (m1 m2 m12 : R) (c c' : Cx Ro) (w : Cx Ro * Cx Ro),
  couple Ro sqrt Rcexp c m1 m2 m12 (couple Ro sqrt Rcexp c' m1 m2 m12 w) = couple Ro sqrt Rcexp (cadd c c') m1 m2 m12 w /\
  couple Ro sqrt Rcexp (copp c) m1 m2 m12 (couple Ro sqrt Rcexp c m1 m2 m12 w) = w.
Proof. exact group_real. Qed.
Print Assumptions C84_group.
(** What happens instead where the potentials are equal: the sign of the coupling has no effect, and a negative coupling acts as its
    absolute value. *)
Theorem C84_sign_code : forall (F : ofld) (sq : F -> F) (cexp : Cx F -> Cx F) (m g : F) (c : Cx F) (w : Cx F * Cx F),
  couple F sq cexp c m m (copp g) w = couple F sq cexp c m m g w.
Proof. exact couple_sign. Qed.
Print Assumptions C84_sign_code.
Theorem C84_degenerate_code : forall (m g : R) (c : Cx Ro) (a : Cx Ro), (0 <= g)%R ->
  couple Ro sqrt Rcexp c m m (- g)%R (a, a) = (cmul (Rcexp (cmul (@cx_of Ro (m + g)%R) c)) a, cmul (Rcexp (cmul (@cx_of Ro (m + g)%R) c)) a) /\
  couple Ro sqrt Rcexp c m m (- g)%R (a, copp a) =
    (cmul (Rcexp (cmul (@cx_of Ro (m - g)%R) c)) a, cmul (Rcexp (cmul (@cx_of Ro (m - g)%R) c)) (copp a)).
Proof. exact degenerate_real. Qed.
Print Assumptions C84_degenerate_code.

(** Examples: the matrix (0 12; 12 7) has the eigenvalues -9 and 16, all roots are rational; its vector (3, 4) is multiplied by the
    exponential of 16 c. *)
Example C84_example : exact_root Qco sqQ (zq 0) (zq 7) (zq 12) /\ exact_norm Qco sqQ (zq 0) (zq 7) (zq 12) /\
  let E := diag22 Qco sqQ (zq 0) (zq 7) (zq 12) in
  e_0 E = zq (-9) /\ e_1 E = zq 16 /\ v_00 E = Q2Qc (4 # 5) /\ v_10 E = Q2Qc (-3 # 5) /\ v_01 E = Q2Qc (3 # 5) /\ v_11 E = Q2Qc (4 # 5).
Proof. split; [exact rootQ2|split; [exact normQ2|exact example_diag]]. Qed.
Example C84_example_step : ceigen Ro 0%R 7%R 12%R 16%R ((3, 0), (4, 0))%R /\ ceigen Ro 5%R 5%R (-2)%R 3%R ((1, 0), (1, 0))%R.
Proof. split; split; apply (@cx_eq Ro); cbn; ring. Qed.
