(** What a laser reports. *)
From Coq Require Import List ZArith.
From Verif Require Import Base Arrays Algebra Model.Laser.

Section S.
  Variable R : cring.
  (** a clock has been set *)
  Definition clocked (l : laser R) : Prop := l_clock R l <> None.
  (** the field value the laser reports at step t *)
  Definition reported (l : laser R) (t : Z) (x : R) : Prop := l_get R (l_at R l t) = Ok x.
End S.
