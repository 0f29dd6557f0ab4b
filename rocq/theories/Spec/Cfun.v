(** Correlation functions of one and two times. *)
From Coq Require Import List ZArith.
From Verif Require Import Base Arrays.
Import ListNotations.
Open Scope Z_scope.

Section S.
  Variables (V K : Type) (ip : V -> V -> K) (U : Z -> V -> V).
  (** the propagation from step [a] to step [b] *)
  Definition evolve (a b : Z) (v : V) : V := fold_left (fun v j => U j v) (upto a b) v.
  (** operators acting at step [t], the first one first *)
  Definition acting (t : Z) (l : list (Z -> V -> V)) (v : V) : V := fold_left (fun v o => o t v) l v.

  (** The ket starts with the operators [k0] and is hit by the signal operators [s] at the time of the value; the bra starts with [b0].  The values are those
      after each [w] steps. *)
  Definition one_time (w : Z) (k0 s b0 : list (Z -> V -> V)) (psi0 : V) (t : Z) : K :=
    ip (evolve 0 (t * w) (acting 0 b0 psi0)) (acting (t * w) s (evolve 0 (t * w) (acting 0 k0 psi0))).
  (** The operators [a] act on the ket at the first time, the signal operators at the second. *)
  Definition two_times_ket (w : Z) (k0 a s b0 : list (Z -> V -> V)) (psi0 : V) (t1 t2 : Z) : K :=
    ip (evolve 0 (t2 * w) (acting 0 b0 psi0))
       (acting (t2 * w) s (evolve (t1 * w) (t2 * w) (acting (t1 * w) a (evolve 0 (t1 * w) (acting 0 k0 psi0))))).
  (** The operators [a] act on the bra at the first time, the signal operators on the ket at the second. *)
  Definition two_times_bra (w : Z) (k0 s b0 a : list (Z -> V -> V)) (psi0 : V) (t1 t2 : Z) : K :=
    ip (evolve (t1 * w) (t2 * w) (acting (t1 * w) a (evolve 0 (t1 * w) (acting 0 b0 psi0))))
       (acting (t2 * w) s (evolve 0 (t2 * w) (acting 0 k0 psi0))).
End S.
(** the second time is not before the first and at most [m] values behind it, where [m <= 0] means no limit *)
Definition wanted (m t1 t2 : Z) : Prop := t1 <= t2 /\ (m <= 0 \/ t2 - t1 <= m).
