(** Momentum space tables: the wave number of a grid point in a dimension, and tables given by a function of the
    multi-index. *)
From Coq Require Import List ZArith Bool Arith.
From Verif Require Import Base Arrays Algebra Spec.Grid.
Import ListNotations.
Open Scope Z_scope.

(** signed frequency of bin i of N *)
Definition wavek (N i : Z) : Z := if 2 * i <? N then i else i - N.

Section Tables.
  Variable F : fld.
  Variable ds : list Z.
  Variable dk : nat -> F.

  (** wave number of the point cs in dimension d *)
  Definition kat (cs : list Z) (d : nat) : F := (ofZ (wavek (nth d ds 0%Z) (nth d cs 0%Z)) * dk d)%cr.

  Definition table (t : list F) (f : list Z -> F) : Prop :=
    zlen t = points ds /\ forall cs, in_box ds cs -> rd t (flat ds cs) = Ok (f cs).

  (** derivative of the given order in one dimension: i k, resp. - k^2 *)
  Definition single_value (deriv : Z) (pf : nat -> F) (d : nat) (cs : list Z) : F :=
    if deriv =? 1 then (pf d * kat cs d)%cr else (- (pf d * (kat cs d * kat cs d)))%cr.

  (** the sum of the dimensions *)
  Definition coll_value (deriv : Z) (pf : nat -> F) (cs : list Z) : F :=
    lsum (fun d => single_value deriv pf d cs) (seq 0 (length ds)).

  Definition chosen (dim : Z) (d : nat) : Prop := (d < length ds)%nat /\ (dim < 0 \/ dim = Z.of_nat d).
End Tables.
