(** What a Raman coupling is (doc/Handbook.tex:1033-1036), written without the code. *)
From Coq Require Import Ascii String List ZArith Bool.
From Verif Require Import Base Arrays Algebra Complex Ordered Model.Potential Model.Dipole Model.Raman.
Import ListNotations.
Open Scope Z_scope.

Section Spec.
  Variable F : ofld.
  Open Scope cr_scope.
  Definition half : F := fdiv 1 (1 + 1).
  (** k E1 alpha E2 psi at every grid point; the handbook has k = 1 *)
  Definition raman (k : F) (alpha : list F) (e1 e2 : F) (psi r : list (Cx F)) : Prop :=
    length r = length alpha /\ forall j m c, nth_error alpha j = Some m -> nth_error psi j = Some c ->
      nth_error r j = Some (cx_scale (k * (e1 * m * e2)) c).
  (** the field asked for as number i: that of laser<i>, or else of laser *)
  Definition field_of (lfs : str -> option (list F * F)) (p : nlpars) (i : nat) : option (list F * F) :=
    match nl_num p i, nl_all p with Some n, _ => lfs n | None, Some n => lfs n | None, None => None end.
End Spec.
Arguments half {F}. Arguments raman {F}. Arguments field_of {F}.
