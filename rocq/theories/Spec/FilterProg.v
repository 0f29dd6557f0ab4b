(** What analysing a propagation should do. *)
From Coq Require Import List ZArith Bool.
From Verif Require Import Base Arrays.
Import ListNotations.
Open Scope Z_scope.

Section S.
  Variables (W T : Type) (look : Z -> W -> T -> outcome T).
  (** look at every wave function of a series, in order, the clock counting them *)
  Fixpoint look_all (k : Z) (xs : list W) (t : T) : outcome T :=
    match xs with [] => Ok t | x :: xs => let* t := look k x t in look_all (k + 1) xs t end.
End S.
