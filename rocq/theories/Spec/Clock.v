(** What a clock shows after a history of calls (latest call first), without running it. *)
From Coq Require Import List ZArith.
From Verif Require Import Model.Clock.
Import ListNotations.
Open Scope Z_scope.

Section Shown.
  Context {T : Type} (dt0 : T) (n0 s0 : Z).
  Fixpoint shown_dt (h : list (call T)) : T :=
    match h with [] => dt0 | CDt dt :: _ => dt | _ :: t => shown_dt t end.
  Fixpoint shown_steps (h : list (call T)) : Z :=
    match h with [] => n0 | CSteps n :: _ => n | _ :: t => shown_steps t end.
  Fixpoint shown_step (h : list (call T)) : Z :=
    match h with
    | [] => s0
    | CStep s :: _ => s
    | CBegin :: _ => 0
    | CEnd :: t => shown_steps t - 1
    | CInc :: t => shown_step t + 1
    | CDec :: t => shown_step t - 1
    | _ :: t => shown_step t
    end.
End Shown.
