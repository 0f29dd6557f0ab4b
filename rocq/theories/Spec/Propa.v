(** What a propagation is meant to do. *)
From Coq Require Import List ZArith Bool.
From Verif Require Import Base Arrays.
Import ListNotations.
Open Scope Z_scope.

Section S.
  Variable W : Type.
  Variables pre report prop post : Z -> W -> outcome W.
  (** one step beginning at time step k *)
  Definition turn (k : Z) (x : W) : outcome W :=
    let* x := pre k x in let* x := report k x in let* x := prop k x in post (k + 1) x.
  (** n steps beginning at time step k *)
  Fixpoint evolve (k : Z) (n : nat) (x : W) : outcome W :=
    match n with O => Ok x | S n => let* y := evolve k n x in turn (k + Z.of_nat n) y end.
  (** nothing depends on the time *)
  Definition timeless : Prop := forall j k x, turn j x = turn k x.
End S.
