(** What changes of the basis and products with a matrix should be, without reference to how they are computed. *)
From Coq Require Import List ZArith Lia Bool.
From Verif Require Import Base Arrays Algebra Complex Ordered Spec.ODMultistate.
Import ListNotations.
Open Scope Z_scope.

Section Spec.
  Variable F : ofld.
  Notation C := (Cx F).
  Notation fmat := (Z -> Z -> F).
  (** the vector with the [n] elements of [g] *)
  Definition vec {A} (n : Z) (g : Z -> A) : list A := map g (upto 0 n).
  (** the elements of a matrix with [r] rows and [c] columns, column by column *)
  Definition columns (r c : Z) (X : fmat) : list F := map (fun k => X (k mod r) (k / r)) (upto 0 (r * c)).
  (** the product, [n] the length of the sum *)
  Definition times (n : Z) (M : fmat) (g : Z -> C) (i : Z) : C := lsum (fun j => cmul (cx_of (M i j)) (g j)) (upto 0 n).
  Definition transpose (M : fmat) : fmat := fun i j => M j i.
  (** [g] holds the state [f]: itself or its components in the basis of the columns of [X] *)
  Definition holds (n : Z) (X : fmat) (k : bool) (f : Z -> C) (g : list C) : Prop :=
    g = vec n (if k then times n (transpose X) f else f).
  (** sum of the squares *)
  Definition square (n : Z) (g : Z -> C) : C := lsum (fun s => cmul (cx_conj (g s)) (g s)) (upto 0 n).
End Spec.
Arguments columns {F}. Arguments times {F}. Arguments transpose {F}. Arguments holds {F}. Arguments square {F}.
