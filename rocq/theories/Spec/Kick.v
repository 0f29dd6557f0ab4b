(** What a momentum kick should be: multiplication by a plane wave. *)
From Coq Require Import List ZArith Bool Arith.
From Verif Require Import Base Arrays Algebra Complex Spec.Grid.
Import ListNotations.
Open Scope Z_scope.

Section Wave.
  Variable F : fld.
  Variable cexp : Cx F -> Cx F.
  Open Scope cr_scope.
  Definition im (x : F) : Cx F := (c0, x).
  (** k.x at the grid point cs; missing components of k are zero *)
  Definition kdotx (ds : list Z) (x0 dx : nat -> F) (k : list F) (cs : list Z) : F :=
    lsum (fun d => nth d k c0 * (x0 d + ofZ (nth d cs 0%Z) * dx d)) (seq 0 (length ds)).
  Definition wave_table (ds : list Z) (x0 dx : nat -> F) (k : list F) (t : list (Cx F)) : Prop :=
    zlen t = points ds /\ forall cs, in_box ds cs -> rd t (flat ds cs) = Ok (cexp (im (kdotx ds x0 dx k cs))).

  (** the properties of the exponential function that are used *)
  Record exp_law : Prop := {
    ex_add : forall a b, cexp (a + b) = cexp a * cexp b;
    ex_0 : cexp c0 = c1;
    ex_conj : forall a, cx_conj (cexp a) = cexp (cx_conj a) }.

  (** squared norm, discrete Fourier transform with spacing delta of the phases *)
  Definition knorm (psi : list (Cx F)) : F := lsum (fun a => fst a * fst a + snd a * snd a) psi.
  Definition fourier (delta : F) (psi : Z -> Cx F) (N m : Z) : Cx F :=
    lsum (fun j => psi j * cexp (im (- (ofZ (m * j) * delta)))) (upto 0%Z N).
End Wave.
