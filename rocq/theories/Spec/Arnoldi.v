(** What an Arnoldi step is, written without the code. *)
From Coq Require Import List Lia Bool Arith.
From Verif Require Import Base Arrays Algebra.
Import ListNotations.

Section Spec.
  Variable K : fld.
  Variable M : cmodule K.
  Open Scope cr_scope.
  (** a linear operator *)
  Definition linear (h : M -> M) : Prop :=
    (forall x y, h (madd x y) = madd (h x) (h y)) /\ (forall c x, h (mscale c x) = mscale c (h x)).
  (** c0 x + c1 h x + c2 h (h x) + ... *)
  Fixpoint op_poly (h : M -> M) (cs : list K) (x : M) : M :=
    match cs with [] => m0 | c :: cs => madd (mscale c x) (h (op_poly h cs x)) end.
  Fixpoint num_poly (cs : list K) (z : K) : K := match cs with [] => 0 | c :: cs => c + z * num_poly cs z end.
  (** the same for n x n matrices on columns *)
  Definition mat_vec (n : nat) (A : nat -> nat -> K) (v : nat -> K) (i : nat) : K := lsum (fun j => A i j * v j) (seq 0 n).
  Fixpoint mat_poly (n : nat) (A : nat -> nat -> K) (cs : list K) (v : nat -> K) (i : nat) : K :=
    match cs with [] => 0 | c :: cs => c * v i + mat_vec n A (mat_poly n A cs v) i end.
  (** the first unit vector *)
  Definition first_unit (i : nat) : K := match i with O => 1 | S _ => 0 end.
  (** v_0 q_0 + ... + v_(n-1) q_(n-1) *)
  Fixpoint combine (n : nat) (q : nat -> M) (v : nat -> K) : M :=
    match n with O => m0 | S n => madd (combine n q v) (mscale (v n) (q n)) end.
  (** vector i of the basis *)
  Definition vec (q : list M) (i : nat) : M := nth i q m0.
  (** what remains of h psi after projecting psi out *)
  Definition rest (ip : M -> M -> K) (h : M -> M) (psi : M) : M := madd (h psi) (mscale (- (1) * ip psi (h psi)) psi).
  (** d, z: eigenvalues and eigenvectors of A; l: the inverse of z *)
  Definition diagonal (n : nat) (A z l : nat -> nat -> K) (d : nat -> K) : Prop :=
    (forall v i, (i < n)%nat -> mat_vec n A (mat_vec n z v) i = mat_vec n z (fun j => d j * v j) i) /\
    (forall v i, (i < n)%nat -> mat_vec n z (mat_vec n l v) i = v i).
  (** a hermitian scalar product with norm *)
  Record herm (conj : K -> K) (ip : M -> M -> K) (nrm : M -> K) : Prop := {
    hm_add : forall x y z, ip x (madd y z) = ip x y + ip x z;
    hm_scale : forall c x y, ip x (mscale c y) = c * ip x y;
    hm_sym : forall x y, ip y x = conj (ip x y);
    hm_mul : forall a b, conj (a * b) = conj a * conj b;
    hm_0 : conj 0 = 0;
    hm_1 : conj 1 = 1;
    hm_real : forall x, conj (nrm x) = nrm x;
    hm_norm : forall x, ip x x = nrm x * nrm x }.
  Definition orthonormal (ip : M -> M -> K) (n : nat) (q : nat -> M) : Prop :=
    forall i j, (i < n)%nat -> (j < n)%nat -> ip (q i) (q j) = if (i =? j)%nat then 1 else 0.
  (** h maps the span of q_0 .. q_(n-1) into itself *)
  Definition closed (h : M -> M) (n : nat) (q : nat -> M) : Prop := forall j, (j < n)%nat -> exists v, h (q j) = combine n q v.
  Definition hermitian (ip : M -> M -> K) (h : M -> M) : Prop := forall x y, ip x (h y) = ip (h x) y.
  (** A has a basis of eigenvectors *)
  Definition diagonalisable (n : nat) (A : nat -> nat -> K) : Prop := exists d z l, diagonal n A z l d.
End Spec.
(** at least three vectors, the present size at least two and not beyond the vectors stored *)
Definition usable (max order stored : nat) : Prop := 3 <= max /\ 2 <= order <= max /\ order <= stored.
Arguments linear {K M}. Arguments op_poly {K M}. Arguments num_poly {K}. Arguments mat_vec {K}. Arguments mat_poly {K}. Arguments first_unit {K}.
Arguments combine {K M}. Arguments vec {K M}. Arguments rest {K M}. Arguments diagonal {K}. Arguments herm {K M}. Arguments orthonormal {K M}. Arguments closed {K M}. Arguments hermitian {K M}. Arguments diagonalisable {K}.
