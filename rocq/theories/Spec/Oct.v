(** What the optimal control methods compute, in terms of trajectories: no clock, no buffers, no swapping. *)
From Coq Require Import List ZArith QArith Qabs Lia Bool.
From Verif Require Import Base Algebra Complex.
Import ListNotations.
Open Scope Z_scope.

Section OctSpec.
  Variable F : fld.
  Variable W : Type.
  (** one time step of the propagation, backwards for [false]: direction, number of the step, laser values *)
  Variable step : bool -> Z -> list F -> W -> W.
  Variable mu : W -> W.
  Variable dot : W -> W -> Cx F.
  Variable target : Z -> W -> W.
  Variable shape : list F.
  Variable alpha : F.
  Variable phase : bool.
  Variable T : Z.
  Open Scope cr_scope.

  (** lasers at step k *)
  Definition values (ls : list (list F)) (k : Z) : list F := map (fun l => nth (Z.to_nat k) l 0) ls.

  (** the state psi at time 0, at time k under the lasers [ls] *)
  Fixpoint fwd (ls : list (list F)) (psi : W) (k : nat) : W :=
    match k with
    | 0%nat => psi
    | S k => step true (Z.of_nat k) (values ls (Z.of_nat k)) (fwd ls psi k)
    end.
  (** the state chi at time T, at time T - k under the lasers [ls] *)
  Fixpoint bwd (ls : list (list F)) (chi : W) (k : nat) : W :=
    match k with
    | 0%nat => chi
    | S k => step false (T - Z.of_nat (S k))%Z (values ls (T - Z.of_nat (S k))%Z) (bwd ls chi k)
    end.
  Definition at_time (ls : list (list F)) (psis : list W) (k : Z) : list W := map (fun p => fwd ls p (Z.to_nat k)) psis.
  Definition back_at (ls : list (list F)) (chis : list W) (k : Z) : list W := map (fun c => bwd ls c (Z.to_nat (T - k))) chis.

  (** the imaginary part that drives the field: of <chi|mu phi>, or of <phi|chi><chi|mu phi> *)
  Definition imag_term (phi chi : W) : F :=
    let a := dot phi chi in
    let b := dot chi (mu phi) in
    if phase then snd b else fst a * snd b + snd a * fst b.
  Definition imag_sum (phis chis : list W) : F := lsum (fun p => imag_term (fst p) (snd p)) (combine phis chis).

  (** [new] is the field of an iteration: at every step every laser has the value
      base(k) - S(k) / (alpha n) (sum_t Im(..phi_t(k)..chi_t(k)..) + gamma(k)),  where phi_t is the trajectory of the
      initial state t under the field [new] itself *)
  Definition field_eq (base : Z -> F) (gamma : Z -> F) (psis : list W) (chi : Z -> list W) (new : list (list F)) : Prop :=
    forall k l, (0 <= k < T)%Z -> In l new ->
      nth (Z.to_nat k) l 0 =
      base k - nth (Z.to_nat k) shape 0 / (alpha * ofZ (Z.of_nat (length psis))) *
               (imag_sum (at_time new psis k) (chi k) + gamma k).

  (** the targets at time T and their trajectories backwards under the old lasers *)
  Definition op_targets (old : list (list F)) (psis : list W) : list W :=
    map (fun p => target (Z.of_nat (fst p)) (snd p)) (combine (seq 0 (length psis)) (at_time old psis T)).

  (** ** The updates of the methods: [new] from [old] with the targets [tg] at time T *)
  Definition krotov_update (psis tg : list W) (old new : list (list F)) : Prop :=
    field_eq (fun k => nth (Z.to_nat k) (hd [] old) 0) (fun _ => 0) psis (back_at old tg) new.
  Definition rabitz_update (psis tg : list W) (old new : list (list F)) : Prop :=
    field_eq (fun _ => 0) (fun _ => 0) psis (back_at old tg) new.
  (** frequency shaping: the old lasers are replaced by the filtered first one ([b], targets for b); gamma is the
      imaginary part along the trajectories under b of the initial states and of the targets propagated back to 0 and
      forth, with the other part of the filter *)
  Definition gamma_field (psis chi0 : list W) (b : list (list F)) : list F :=
    map (fun k => imag_sum (at_time b psis (Z.of_nat k)) (at_time b chi0 (Z.of_nat k))) (seq 0 (Z.to_nat T)).
  Definition freq_update (pass stop : list F -> list F) (psis : list W) (tg : list (list F) -> list W) (old new : list (list F)) : Prop :=
    let b := repeat (pass (hd [] old)) (length old) in
    let chi := back_at b (tg b) in
    let g := stop (gamma_field psis (chi 0%Z) b) in
    field_eq (fun k => nth (Z.to_nat k) (pass (hd [] old)) 0) (fun k => nth (Z.to_nat k) g 0) psis chi new.
  (** feedback: the targets go back under a field [eb] that is calculated on the way, from the trajectory of the initial
      states under the old lasers; the new field uses the targets under eb *)
  Definition feedback_update (psis tg : list W) (old new : list (list F)) : Prop :=
    exists eb, length eb = length old /\ (forall k l, (0 <= k < T)%Z -> In l eb ->
        nth (Z.to_nat k) l 0 =
        - (nth (Z.to_nat k) shape 0 / (alpha * ofZ (Z.of_nat (length psis))) *
           imag_sum (at_time old psis (k + 1)) (back_at eb tg (k + 1)))) /\
      field_eq (fun _ => 0) (fun _ => 0) psis (back_at eb tg) new.

  (** lasers of the same number, sizes, and with the same entries from step T on *)
  Definition same_tail (a b : list F) : Prop :=
    length a = length b /\ forall k, (T <= k)%Z -> nth (Z.to_nat k) a 0 = nth (Z.to_nat k) b 0.
  Definition same_lasers (a b : list (list F)) : Prop := Forall2 same_tail a b.
  (** the lasers have at least T entries *)
  Definition long_enough (ls : list (list F)) : Prop := Forall (fun l => T <= Z.of_nat (length l)) ls.
End OctSpec.

(** ** A course of iterations *)
(** e 0 are the lasers given, e (j + 1) is an update of e j, for j < K *)
Definition course (F : fld) (T : Z) (update : list (list F) -> list (list F) -> Prop) (lasers : list (list F)) (K : nat)
  (e : nat -> list (list F)) : Prop :=
  e 0%nat = lasers /\ forall j, (j < K)%nat -> update (e j) (e (S j)) /\ same_lasers F T (e (S j)) lasers.

(** the yield of the lasers e j: a number made of the initial states at time T and of the targets; the guess e 0 is
    compared with [tg0], the later ones with the targets of the iteration that made them *)
Definition yields {F : fld} {W : Type} (states : list (list F) -> list W) (report : list W -> list W -> Q)
  (tg0 : list W) (tg : list (list F) -> list W) (e : nat -> list (list F)) (j : nat) : Q :=
  report (states (e j)) (match j with 0%nat => tg0 | S i => tg (e i) end).

(** ** when the iterations stop *)
Open Scope Q_scope.
(** the sum of the changes between three yields *)
Definition change (a b c : Q) : Q := Qabs (Qabs (Qabs a - Qabs b) + Qabs (Qabs b - Qabs c)).
(** the intended criterion: the last three of the yields 0..K *)
Definition settled (conv : Q) (y : nat -> Q) (K : nat) : Prop :=
  (2 <= K)%nat /\ change (y (K - 2)%nat) (y (K - 1)%nat) (y K) <= conv.
(** the criterion as it is: the yield 0 and the ones before count as 1, and the change before the first iteration is 1 *)
Definition padded (y : nat -> Q) (j : nat) : Q := match j with 0%nat => 1 | _ => y j end.
Definition padded_change (y : nat -> Q) (j : nat) : Q :=
  match j with 0%nat => 1 | _ => change (padded y (j - 2)) (padded y (j - 1)) (padded y j) end.
(** K iterations are made: not more than allowed, each because the change before it was too large, and the last one
    ends it because it was the last allowed or because the change is small *)
Definition stops (iterations : Z) (conv : Q) (y : nat -> Q) (K : nat) : Prop :=
  (Z.of_nat K <= iterations)%Z /\ (forall j, (j < K)%nat -> conv < padded_change y j) /\
  ((Z.of_nat K < iterations)%Z -> padded_change y K <= conv).
