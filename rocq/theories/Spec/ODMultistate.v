(** What the exponential of a matrix of diagonal operators should be, without reference to how it is computed. *)
From Coq Require Import List ZArith Lia Bool.
From Verif Require Import Base Arrays Algebra Complex Ordered.
Import ListNotations.
Open Scope Z_scope.

Section Spec.
  Variable F : ofld.
  Notation C := (Cx F).
  Notation fmat := (Z -> Z -> F).

  (** the table with [n] rows of [size] values *)
  Definition table {A} (n size : Z) (f : Z -> Z -> A) : list (list A) := map (fun s => map (f s) (upto 0 size)) (upto 0 n).
  Definition symmetric (n : Z) (M : fmat) : Prop := forall k l, 0 <= k < n -> 0 <= l < n -> M k l = M l k.
  (** the values [w] of all states at one point are an eigenvector of [M] *)
  Definition eigvec (n : Z) (M : fmat) (lam : F) (w : Z -> C) : Prop :=
    forall k, 0 <= k < n -> lsum (fun l => cmul (cx_of (M k l)) (w l)) (upto 0 n) = cmul (cx_of lam) (w k).
  (** The matrix an operator matrix stands for at point [i] (OMultistate::Apply): element (k,l) acts by its factor times its diagonal;
      without an element nothing happens, except that with [unity] a missing diagonal element is the identity. *)
  Definition op_matrix (unity : bool) (el : Z -> Z -> option (F * list F)) (i : Z) : fmat :=
    fun k l => match el k l with
               | Some (f, d) => cmul f (nth (Z.to_nat i) d c0)
               | None => if unity && (k =? l) then c1 else c0
               end.
  (** LAPACK's guarantee: orthonormal eigenvectors in the columns of [X] with eigenvalues [ev] *)
  Definition delta (i j : Z) : F := if i =? j then c1 else c0.
  Definition orthonormal (n : Z) (X : fmat) : Prop :=
    (forall i j, 0 <= i < n -> 0 <= j < n -> lsum (fun k => cmul (X k i) (X k j)) (upto 0 n) = delta i j) /\
    (forall i j, 0 <= i < n -> 0 <= j < n -> lsum (fun k => cmul (X i k) (X j k)) (upto 0 n) = delta i j).
  Definition eigenbasis (n : Z) (M X : fmat) (ev : Z -> F) : Prop :=
    orthonormal n X /\
    forall k j, 0 <= k < n -> 0 <= j < n -> lsum (fun l => cmul (M k l) (X l j)) (upto 0 n) = cmul (ev j) (X k j).
  Definition agree (n : Z) (M H : fmat) : Prop := forall k l, 0 <= k < n -> 0 <= l < n -> M k l = H k l.
  Definition lapack (eig : Z -> fmat -> fmat * (Z -> F)) (n : Z) (H : fmat) : Prop :=
    forall M, agree n M H -> eigenbasis n H (fst (eig n M)) (snd (eig n M)).
  (** sum of the squares of all states at point [i] *)
  Definition weight (n : Z) (f : Z -> Z -> C) (i : Z) : C := lsum (fun s => cmul (cx_conj (f s i)) (f s i)) (upto 0 n).
End Spec.
Arguments table {A}.
