(** Central difference weights: a formula is exact for polynomials up to degree 2p iff these moments hold. *)
From Coq Require Import List ZArith QArith Bool.
From Verif Require Import Base Arrays.
Import ListNotations.

Definition qsum {A} (f : A -> Q) (l : list A) : Q := fold_right (fun a s => Qred (f a + s)) 0%Q l.

(** weights at distances -p..p from the one-sided table t (t p: centre, t 0: distance p), with the sign of the right
    neighbours for derivative d *)
Definition side_weight (t : Z -> Q) (p : Z) (d : Z) (m : Z) : Q :=
  if (m <=? 0)%Z then t (p + m)%Z else if Z.odd d then (- t (p - m)%Z)%Q else t (p - m)%Z.

(** sum_m w_m m^k = k! if k = d, else 0: the formula gives the d-th derivative at 0 of x^k *)
Definition moments (w : Z -> Q) (p d : Z) : Prop :=
  forall k, (0 <= k <= 2 * p)%Z ->
    (qsum (fun m => w m * inject_Z (m ^ k)) (upto (- p) (p + 1)) ==
     if (k =? d)%Z then inject_Z (fold_right Z.mul 1%Z (upto 1 (k + 1))) else 0)%Q.
