(** Coordinates of grid points, written without the code. *)
From Coq Require Import List ZArith Bool Arith.
From Verif Require Import Base Arrays Algebra Complex Ordered Spec.Grid.
Import ListNotations.

Section Spec.
  Variable F : ofld.
  Open Scope cr_scope.
  (** N equidistant points from lo to hi: number n *)
  Definition place (N : Z) (lo hi : F) (n : Z) : F := lo + ofZ n * ((hi - lo) / ofZ (N - 1)).
  (** a grid: points and ends of each dimension; the coordinate d of the point cs *)
  Definition coord (g : list (Z * F * F)) (cs : list Z) (d : nat) : F :=
    match nth_error g d with Some (N, lo, hi) => place N lo hi (nth d cs 0%Z) | None => 0 end.
  Definition total (l : list F) : F := fold_right cadd 0 l.
  (** the coordinate asked for, or the sum of all of them *)
  Definition position (g : list (Z * F * F)) (od : option Z) (cs : list Z) : F :=
    match od with Some d => coord g cs (Z.to_nat d) | None => total (map (coord g cs) (seq 0 (length g))) end.
  (** a table of numbers for all points of a grid *)
  Definition table_of (ds : list Z) (t : list (option F)) (f : list Z -> F) : Prop :=
    zlen t = points ds /\ forall cs, in_box ds cs -> rd t (flat ds cs) = Ok (Some (f cs)).
  Definition within (lo x hi : F) : Prop := (olt lo x \/ lo = x) /\ (olt x hi \/ x = hi).
  Definition dot (a b : list (Cx F)) : Cx F := fold_right cadd 0 (map (fun x => cmul (cx_conj (fst x)) (snd x)) (combine a b)).
End Spec.
Arguments place {F}. Arguments coord {F}. Arguments position {F}. Arguments table_of {F}. Arguments within {F}. Arguments total {F}. Arguments dot {F}.
