(** Local maxima and peak regions of a series. *)
From Coq Require Import List ZArith QArith Bool.
Import ListNotations.
Open Scope Z_scope.

Definition at_ (data : list Q) (i : Z) : Q := nth (Z.to_nat i) data 0%Q.

Definition local_max (data : list Q) (i : Z) : Prop :=
  1 <= i /\ i + 1 < Z.of_nat (length data) /\ (at_ data (i - 1) < at_ data i)%Q /\ (at_ data (i + 1) < at_ data i)%Q.
Definition local_min (data : list Q) (i : Z) : Prop :=
  1 <= i /\ i + 1 < Z.of_nat (length data) /\ (at_ data i < at_ data (i - 1))%Q /\ (at_ data i < at_ data (i + 1))%Q.

(** indices a..c-1 form a region that starts above and stays at or above the threshold *)
Definition region (data : list Q) (thr : Q) (a c : Z) : Prop :=
  0 <= a < c /\ c <= Z.of_nat (length data) /\ (thr < at_ data a)%Q /\
  (forall j, a <= j < c -> (thr <= at_ data j)%Q) /\
  (c = Z.of_nat (length data) \/ (at_ data c < thr)%Q) /\ (a = 0 \/ (at_ data (a - 1) <= thr)%Q).

(** p is the first place of the largest value in a..c-1 *)
Definition summit (data : list Q) (a c p : Z) : Prop :=
  a <= p < c /\ (forall j, a <= j < c -> (at_ data j <= at_ data p)%Q) /\ (forall j, a <= j < p -> (at_ data j < at_ data p)%Q).

(** a square root that is exact on squares *)
Definition root (sq : Q -> Q) : Prop := forall v w, (0 <= w)%Q -> (v == w * w)%Q -> (sq v == w)%Q.
