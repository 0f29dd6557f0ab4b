(** Specification of FIFOs: two files for every object, and nothing else. *)
From Coq Require Import Ascii String List ZArith Lia Bool Arith.
From Verif Require Import Base Arrays Model.Fifo.
Import ListNotations.
Open Scope Z_scope.

(** s' has the two FIFOs of n besides what is in s *)
Definition with_pair (s : fs) (n : str) (s' : fs) : Prop :=
  s (n ++ lit "rx") = None /\ s (n ++ lit "tx") = None /\ s' (n ++ lit "rx") = Some Pipe /\ s' (n ++ lit "tx") = Some Pipe /\
  forall m, m <> n ++ lit "rx" -> m <> n ++ lit "tx" -> s' m = s m.
Definition same (s s' : fs) : Prop := forall m, s m = s' m.
(** the names that belong to objects *)
Definition owned (live : list str) (m : str) : Prop := exists n, In n live /\ (m = n ++ lit "rx" \/ m = n ++ lit "tx").
(** nothing but the FIFOs of the objects besides what was in s0 *)
Definition exactly (s0 : fs) (live : list str) (s : fs) : Prop :=
  (forall m, owned live m -> s m = Some Pipe /\ s0 m = None) /\ (forall m, ~ owned live m -> s m = s0 m).
