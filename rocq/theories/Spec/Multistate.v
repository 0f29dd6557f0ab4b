(** What a multi state wave function is: a list of states. *)
From Coq Require Import List ZArith.
From Verif Require Import Base Arrays Algebra Model.Multistate.
Import ListNotations.
Open Scope Z_scope.

Section S.
  Variable R : cring.
  (** the wave function consists of exactly these states *)
  Definition consists (m : ms R) (l : list (wf R)) : Prop :=
    m_n R m = zlen l /\ zlen (m_tab R m) = max_states /\ forall i w, rd l i = Ok w -> rd (m_tab R m) i = Ok (Some w).
  (** a history of additions; some of them may have thrown *)
  Inductive built : ms R -> Prop :=
  | b_new : built (ms_new R)
  | b_add m psi index ok m' : built m -> 0 <= index -> ms_add R m psi index = Ok (ok, m') -> built m'.
  (** a sesquilinear inner product *)
  Variable C : cring.
  Variable sp : wf R -> wf R -> C.
  Definition inner (l1 l2 : list (wf R)) : C := lsum (fun p => sp (fst p) (snd p)) (combine l1 l2).
End S.
