(** The reduction criterion. *)
From Coq Require Import List ZArith QArith Qabs.
From Verif Require Import Model.Reduce.
Import ListNotations.
Open Scope Q_scope.

(** M is the largest absolute value in the vector *)
Definition largest (cabs : dcq -> Q) (v : list dcq) (M : Q) : Prop :=
  (forall c, In c v -> cabs c <= M) /\ exists c, In c v /\ cabs c = M.
(** cabs is right on the vector *)
Definition is_abs (cabs : dcq -> Q) (v : list dcq) : Prop :=
  forall c, In c v -> 0 <= cabs c /\ cabs c * cabs c == fst c * fst c + snd c * snd c.
(** component x of the source became y: zero only below the threshold, kept (divided by s) otherwise *)
Definition reduced (s thr x y : Q) : Prop := (Qabs x < thr /\ y = 0) \/ (~ Qabs x < thr /\ y == x / s).
Definition reduced_vec (s thr : Q) (v w : list dcq) : Prop :=
  Forall2 (fun c d => reduced s thr (fst c) (fst d) /\ reduced s thr (snd c) (snd d)) v w.
Fixpoint qsum (l : list Q) : Q := match l with [] => 0 | a :: t => a + qsum t end.
(** the norm of a level wave function, squared *)
Definition norm2 (v : list dcq) : Q := qsum (map (fun c => fst c * fst c + snd c * snd c) v).
(** the weaker claim: nothing at or above the threshold is changed *)
Definition kept_or_small (thr x y : Q) : Prop := y = x \/ (y = 0 /\ Qabs x < thr).
Definition kept_or_small_vec (thr : Q) (v w : list dcq) : Prop :=
  Forall2 (fun c d => kept_or_small thr (fst c) (fst d) /\ kept_or_small thr (snd c) (snd d)) v w.
