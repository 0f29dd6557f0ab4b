(** C90: the Arnoldi propagator. *)
From Coq Require Import List Lia Bool Arith QArith Qcanon.
From Verif Require Import Base Arrays Algebra RealField Model.Arnoldi Spec.Arnoldi Proofs.Arnoldi.
From Verif Require Import Spec.Arnoldi.
Import ListNotations.
Open Scope nat_scope.
Open Scope cr_scope.

(** Init refuses orders below three; the operator is usable afterwards. *)
Theorem C90_init : forall (K : fld) (M : cmodule K) (fresh : M) m,
  ((m < 3)%nat -> arn_init K M fresh m = Throw) /\
  ((3 <= m)%nat -> exists s, arn_init K M fresh m = Ok s /\ ar_max s = m /\ usable (ar_max s) (ar_order s) (length (ar_q s))).
Proof. exact init_ok. Qed.
Print Assumptions C90_init.

(** A usable operator builds its vectors, and stays usable, for every wave function. *)
Theorem C90_runs : forall (K : fld) (M : cmodule K) ip nrm tiny conv h fresh (s : arn K M) psi, tiny 0 = true ->
  usable (ar_max s) (ar_order s) (length (ar_q s)) ->
  exists s', build K M ip nrm tiny conv h fresh s psi = Ok s' /\ ar_max s' = ar_max s /\ usable (ar_max s') (ar_order s') (length (ar_q s')) /\ vec (ar_q s') 0 = psi.
Proof. exact runs_ok. Qed.
Print Assumptions C90_runs.

(** Polynomials with as many terms as vectors are exact on the wave function. *)
Theorem C90_krylov : forall (K : fld) (M : cmodule K) ip nrm tiny conv h fresh (s s' : arn K M) psi cs, tiny 0 = true -> linear h ->
  (tiny (nrm (rest ip h psi)) = true -> rest ip h psi = m0) -> usable (ar_max s) (ar_order s) (length (ar_q s)) ->
  build K M ip nrm tiny conv h fresh s psi = Ok s' -> (length cs <= ar_order s')%nat ->
  op_poly h cs psi = combine (ar_order s') (vec (ar_q s')) (mat_poly (ar_order s') (ar_h s') cs first_unit).
Proof. exact krylov_ok. Qed.
Print Assumptions C90_krylov.

(** A step with the function f gives p(h) psi, p the polynomial that interpolates f at the eigenvalues of the matrix. *)
Theorem C90_step : forall (K : fld) (M : cmodule K) ip nrm tiny conv h fresh eig inv f (s s' : arn K M) psi cs d z, tiny 0 = true -> linear h ->
  (tiny (nrm (rest ip h psi)) = true -> rest ip h psi = m0) -> usable (ar_max s) (ar_order s) (length (ar_q s)) ->
  build K M ip nrm tiny conv h fresh s psi = Ok s' ->
  eig (ar_order s') (ar_h s') = (d, z) -> diagonal (ar_order s') (ar_h s') z (inv (ar_order s') z) d ->
  (length cs <= ar_order s')%nat -> (forall i, (i < ar_order s')%nat -> f (d i) = num_poly cs (d i)) ->
  step K M ip nrm tiny conv h fresh eig inv f s psi = Ok (s', op_poly h cs psi).
Proof. exact step_poly. Qed.
Print Assumptions C90_step.

(** The vectors are orthonormal and the matrix is the projection of the Hamiltonian. *)
Definition C90_projection : Prop := forall (K : fld) (M : cmodule K) ip nrm tiny conv h fresh cj (s s' : arn K M) psi, tiny 0 = true -> linear h ->
  herm cj ip nrm -> ip psi psi = 1 -> (forall x, tiny (nrm x) = true -> x = m0) -> usable (ar_max s) (ar_order s) (length (ar_q s)) ->
  build K M ip nrm tiny conv h fresh s psi = Ok s' ->
  orthonormal ip (ar_order s') (vec (ar_q s')) /\
  forall i j, (i < ar_order s')%nat -> (j < ar_order s')%nat -> ar_h s' i j = ip (vec (ar_q s') i) (h (vec (ar_q s') j)).
(** Refuted: an eigenvector leaves the number of vectors as it was. *)
Theorem C90_projection_refuted : ~ C90_projection.
Proof. exact projection_refuted. Qed.
Print Assumptions C90_projection_refuted.
(** What holds: the same unless the wave function is an eigenvector. *)
Theorem C90_projection_partial : forall (K : fld) (M : cmodule K) ip nrm tiny conv h fresh cj (s s' : arn K M) psi, tiny 0 = true ->
  herm cj ip nrm -> ip psi psi = 1 -> tiny (nrm (rest ip h psi)) = false -> usable (ar_max s) (ar_order s) (length (ar_q s)) ->
  build K M ip nrm tiny conv h fresh s psi = Ok s' ->
  orthonormal ip (ar_order s') (vec (ar_q s')) /\
  forall i j, (i < ar_order s')%nat -> (j < ar_order s')%nat -> ar_h s' i j = ip (vec (ar_q s') i) (h (vec (ar_q s') j)).
Proof. exact projection_ok. Qed.
Print Assumptions C90_projection_partial.
Theorem C90_order_code : forall (K : fld) (M : cmodule K) ip nrm tiny conv h fresh (s s' : arn K M) psi, tiny 0 = true -> tiny (nrm (rest ip h psi)) = true ->
  usable (ar_max s) (ar_order s) (length (ar_q s)) -> build K M ip nrm tiny conv h fresh s psi = Ok s' -> ar_order s' = ar_order s.
Proof. exact order_code. Qed.
Print Assumptions C90_order_code.
Theorem C90_hermitian_partial : forall (K : fld) (M : cmodule K) ip nrm tiny conv h fresh cj (s s' : arn K M) psi, tiny 0 = true ->
  herm cj ip nrm -> ip psi psi = 1 -> tiny (nrm (rest ip h psi)) = false -> hermitian ip h -> usable (ar_max s) (ar_order s) (length (ar_q s)) ->
  build K M ip nrm tiny conv h fresh s psi = Ok s' -> forall i j, (i < ar_order s')%nat -> (j < ar_order s')%nat -> ar_h s' i j = cj (ar_h s' j i).
Proof. exact herm_partial. Qed.
Print Assumptions C90_hermitian_partial.

(** The matrix of a hermitian Hamiltonian has a basis of eigenvectors (the step inverts it), whatever was propagated before. *)
Definition C90_diagonal : Prop := forall (K : fld) (M : cmodule K) ip nrm tiny conv h fresh cj m (s0 : arn K M) psis (s s' : arn K M) psi, tiny 0 = true -> linear h ->
  herm cj ip nrm -> hermitian ip h -> ip psi psi = 1 -> (forall x, tiny (nrm x) = true -> x = m0) ->
  arn_init K M fresh m = Ok s0 -> foldM (build K M ip nrm tiny conv h fresh) psis s0 = Ok s ->
  build K M ip nrm tiny conv h fresh s psi = Ok s' -> diagonalisable (ar_order s') (ar_h s').
(** Refuted: an eigenvector after another wave function, the last column is made of an old vector. *)
Theorem C90_diagonal_refuted : ~ C90_diagonal.
Proof. exact diagonal_refuted. Qed.
Print Assumptions C90_diagonal_refuted.

(** Once the vectors span an invariant space every polynomial is exact. *)
Definition C90_exact : Prop := forall (K : fld) (M : cmodule K) ip nrm tiny conv h fresh cj (s s' : arn K M) psi cs, tiny 0 = true -> linear h ->
  herm cj ip nrm -> (forall x, tiny (nrm x) = true -> x = m0) -> usable (ar_max s) (ar_order s) (length (ar_q s)) ->
  build K M ip nrm tiny conv h fresh s psi = Ok s' -> closed h (ar_order s') (vec (ar_q s')) ->
  op_poly h cs psi = combine (ar_order s') (vec (ar_q s')) (mat_poly (ar_order s') (ar_h s') cs first_unit).
(** Refuted: the wave function is not normalised first. *)
Theorem C90_exact_refuted : ~ C90_exact.
Proof. exact exact_refuted. Qed.
Print Assumptions C90_exact_refuted.
Theorem C90_exact_partial : forall (K : fld) (M : cmodule K) ip nrm tiny conv h fresh cj (s s' : arn K M) psi cs, tiny 0 = true -> linear h ->
  herm cj ip nrm -> ip psi psi = 1 -> (forall x, tiny (nrm x) = true -> x = m0) -> usable (ar_max s) (ar_order s) (length (ar_q s)) ->
  build K M ip nrm tiny conv h fresh s psi = Ok s' -> closed h (ar_order s') (vec (ar_q s')) ->
  op_poly h cs psi = combine (ar_order s') (vec (ar_q s')) (mat_poly (ar_order s') (ar_h s') cs first_unit).
Proof. exact exact_partial. Qed.
Print Assumptions C90_exact_partial.

(** A step does not depend on what was propagated before, nor on being a copy. *)
Definition C90_history : Prop := forall (K : fld) (M : cmodule K) ip nrm tiny conv h fresh (s1 s2 : arn K M) psi, tiny 0 = true ->
  usable (ar_max s1) (ar_order s1) (length (ar_q s1)) -> usable (ar_max s2) (ar_order s2) (length (ar_q s2)) -> ar_max s1 = ar_max s2 ->
  exists r1 r2, build K M ip nrm tiny conv h fresh s1 psi = Ok r1 /\ build K M ip nrm tiny conv h fresh s2 psi = Ok r2 /\ ar_order r1 = ar_order r2 /\ ar_h r1 = ar_h r2.
Theorem C90_history_refuted : ~ C90_history.
Proof. exact history_refuted. Qed.
Print Assumptions C90_history_refuted.
Theorem C90_history_partial : forall (K : fld) (M : cmodule K) ip nrm tiny conv h fresh eig inv f (s1 s2 : arn K M) psi, tiny 0 = true ->
  (3 <= ar_max s1)%nat -> ar_max s1 = ar_max s2 -> tiny (nrm (rest ip h psi)) = false ->
  exists r1 r2 y, step K M ip nrm tiny conv h fresh eig inv f s1 psi = Ok (r1, y) /\ step K M ip nrm tiny conv h fresh eig inv f s2 psi = Ok (r2, y).
Proof. exact history_partial. Qed.
Print Assumptions C90_history_partial.

(** A copy propagates what the operator propagates. *)
Definition C90_copy : Prop := forall (K : fld) (M : cmodule K) ip nrm tiny conv h fresh (s : arn K M) psi, tiny 0 = true ->
  usable (ar_max s) (ar_order s) (length (ar_q s)) -> exists r, build K M ip nrm tiny conv h fresh (arn_copy arn_new s) psi = Ok r.
Theorem C90_copy_refuted : ~ C90_copy.
Proof. exact copy_refuted. Qed.
Print Assumptions C90_copy_refuted.
Theorem C90_copy_partial : forall (K : fld) (M : cmodule K) ip nrm tiny conv h fresh eig inv f (s : arn K M) psi, tiny 0 = true ->
  usable (ar_max s) (ar_order s) (length (ar_q s)) -> tiny (nrm (rest ip h psi)) = false ->
  exists r1 r2 y, step K M ip nrm tiny conv h fresh eig inv f s psi = Ok (r1, y) /\ step K M ip nrm tiny conv h fresh eig inv f (arn_copy arn_new s) psi = Ok (r2, y).
Proof. exact copy_partial. Qed.
Print Assumptions C90_copy_partial.

(** Example: numbers as wave functions; the Hamiltonian is 1, first 2, then 1 is propagated. *)
Example C90_laws_ex : herm (fun x : Qcf => x) w_ip w_nrm /\ linear w_id /\ hermitian w_ip w_id /\ (forall x, w_tiny (w_nrm x) = true -> x = m0) /\
  usable (ar_max w_new) (ar_order w_new) (length (ar_q w_new)).
Proof. split; [exact w_herm|]. split; [exact w_lin|]. split; [exact w_hermitian|]. split; [exact w_tiny_eq|]. exact w_usable. Qed.
Example C90_exact_ex : build Qcf Qm w_ip w_nrm w_tiny (fun _ _ => false) w_id (0%Qc : Qm) w_new (qn 2) = Ok w_two /\ ar_order w_two = 2%nat /\
  closed w_id (ar_order w_two) (vec (ar_q w_two)) /\ w_tiny (w_nrm (rest w_ip w_id (qn 2 : Qm))) = false.
Proof. split; [exact w_two_ok|]. split; [exact w_two_order|]. split; [exact w_two_closed|]. vm_compute. reflexivity. Qed.
(** Example: first 1 is propagated; the eigenvalues are 1, 0 and 0. *)
Example C90_step_ex : build Qcf Qm w_ip w_nrm w_tiny (fun _ _ => false) w_id (0%Qc : Qm) w_new (qn 1) = Ok w_first /\ ar_order w_first = 3%nat /\
  diagonal (ar_order w_first) (ar_h w_first) unit_mat unit_mat (fun i => if (i =? 0)%nat then 1 else 0).
Proof. split; [exact w_first_ok|]. split; [exact w_first_order|exact w_first_diag]. Qed.
(** Example: two states, the Hamiltonian exchanges them, the first state is propagated. *)
Example C90_projection_ex : herm (fun x : Rf => x) v_ip v_nrm /\ hermitian v_ip v_swap /\ linear v_swap /\ v_ip v_psi v_psi = c1 /\ v_tiny c0 = true /\
  v_tiny (v_nrm (rest v_ip v_swap v_psi)) = false /\ usable (ar_max v_new) (ar_order v_new) (length (ar_q v_new)).
Proof. exact v_example. Qed.
