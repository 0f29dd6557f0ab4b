(** Reference counting, specified by counting in the history. *)
From Coq Require Import List ZArith Bool Arith.
From Verif Require Import Model.Collector.
Import ListNotations.

(** number of references to p after history h: registrations minus releases since the object was (last) unknown;
    NULL is never registered *)
Definition refs_step (p : nat) (n : nat) (o : cop) : nat :=
  match o with
  | Reg q => if (q =? p) && negb (q =? 0) then S n else n
  | Del q => if q =? p then pred n else n
  | DelAll => 0
  end.
Definition refs (h : list cop) (p : nat) : nat := fold_left (refs_step p) h 0.

(** objects that must be destroyed by operation o after history h *)
Definition must_destroy (h : list cop) (o : cop) (p : nat) : Prop :=
  match o with
  | Reg _ => False
  | Del q => q = p /\ refs h p = 1
  | DelAll => 0 < refs h p
  end.
