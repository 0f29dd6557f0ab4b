(** The step of a split operator propagator, and what a history of calls asks for. *)
From Coq Require Import List ZArith Bool.
From Verif Require Import Base Algebra Complex Ordered Spec.Spo Model.Split.
Import ListNotations.

Section Spec.
  Variable F : ofld.
  Variable cexp : Cx F -> Cx F.
  Variables Fw Bw : list (Cx F) -> list (Cx F).
  Variable ns : F.
  Notation K := (cr (Cx F)).
  Open Scope cr_scope.
  Notation needs := (needs F).

  (** q is exp(c v) p, point by point *)
  Definition phase (c : K) (v : list F) (p q : list K) : Prop := length q = length p /\
    forall i x y, nth_error v i = Some x -> nth_error p i = Some y -> nth_error q i = Some (cexp (cx_of x * c) * y).
  (** q is exp(c T) p: the exponential is applied in momentum space, where the transformation back needs a factor *)
  Definition kin (c : K) (T : list F) (p q : list K) : Prop := exists k, q = Bw k /\ length k = length (Fw p) /\
    forall i x y, nth_error T i = Some x -> nth_error (Fw p) i = Some y -> nth_error k i = Some (cx_of ns * (cexp (cx_of x * c) * y)).
  (** z is exp(c M) y for the matrix M = (m1 g; g m2): y is a sum of eigenvectors, each is multiplied by the exponential of its eigenvalue *)
  Definition expm (c : K) (m1 m2 g : F) (y z : K * K) : Prop := exists l1 l2 a b,
    ceigen F m1 m2 g l1 a /\ ceigen F m1 m2 g l2 b /\ y = (fst a + fst b, snd a + snd b) /\
    z = (cexp (cx_of l1 * c) * fst a + cexp (cx_of l2 * c) * fst b, cexp (cx_of l1 * c) * snd a + cexp (cx_of l2 * c) * snd b).
  Definition mix (c : K) (v0 v1 g : list F) (p0 p1 q0 q1 : list K) : Prop :=
    length q0 = length p0 /\ length q1 = length p1 /\
    forall i a b x y0 y1, nth_error v0 i = Some a -> nth_error v1 i = Some b -> nth_error g i = Some x ->
      nth_error p0 i = Some y0 -> nth_error p1 i = Some y1 ->
      exists z0 z1, nth_error q0 i = Some z0 /\ nth_error q1 i = Some z1 /\ expm c a b x (y0, y1) (z0, z1).

  (** half a step of the potential, a step of the kinetic energy, half a step of the potential; h is half of c *)
  Definition step1 (c h : K) (T v : list F) (p r : list K) : Prop := exists a b, phase h v p a /\ kin c T a b /\ phase h v b r.
  (** the same with a second potential on the diagonal *)
  Definition step1i (c h : K) (T v vi : list F) (p r : list K) : Prop := exists a a' b b',
    phase h v p a /\ phase h vi a a' /\ kin c T a' b /\ phase h v b b' /\ phase h vi b' r.
  (** two states: half a step of the kinetic energy, a step of the potential matrix, half a step of the kinetic energy *)
  Definition step2 (c h : K) (T v0 v1 g : list F) (p0 p1 r0 r1 : list K) : Prop := exists a0 a1 b0 b1,
    kin h T p0 a0 /\ kin h T p1 a1 /\ mix c v0 v1 g a0 a1 b0 b1 /\ kin h T b0 r0 /\ kin h T b1 r1.
End Spec.

Section History.
  Variable F : ofld.
  Variable cexp : Cx F -> Cx F.
  Variables Fw Bw : list (Cx F) -> list (Cx F).
  Variable ns : F.
  Notation K := (cr (Cx F)).
  Open Scope cr_scope.
  Notation needs := (needs F).

  (** the exponent and the clock a history asks for *)
  Fixpoint exp_of (c : K) (os : list (op F)) : K :=
    match os with [] => c | OExponent _ c' :: r => exp_of c' r | _ :: r => exp_of c r end.
  Fixpoint clk_of (t : Z) (os : list (op F)) : Z :=
    match os with [] => t | OClock _ t' :: r => clk_of t' r | _ :: r => clk_of t r end.
  (** a wave function was propagated at a step other than zero *)
  Fixpoint moved (t : Z) (os : list (op F)) : bool :=
    match os with
    | [] => false
    | OClock _ t' :: r => moved t' r
    | OApply _ _ :: r => if (t =? 0)%Z then moved t r else true
    | _ :: r => moved t r
    end.

  Definition valid (n : needs) : Prop :=
    (n_V1 F n = None -> n_C F n = None) /\
    (forall t, length (n_V0 F n t) = length (n_T F n)) /\
    (forall v t, n_V1 F n = Some v -> length (v t) = length (n_T F n)) /\
    (forall v t, n_C F n = Some v -> length (v t) = length (n_T F n)) /\
    (forall v t, n_I F n = Some v -> length (v t) = length (n_T F n)).
  Definition static (n : needs) : Prop := n_td F n = false -> forall t t',
    n_V0 F n t = n_V0 F n t' /\ (forall v, n_V1 F n = Some v -> v t = v t') /\ (forall v, n_C F n = Some v -> v t = v t') /\
    (forall v, n_I F n = Some v -> v t = v t').

  Definition shaped (n : needs) (psi : list (list K)) : Prop :=
    length psi = (match n_V1 F n with Some _ => 2 | None => 1 end)%nat /\ Forall (fun p => length p = length (n_T F n)) psi.
  Definition wanted (n : needs) (c : K) (t : Z) (psi psi' : list (list K)) : Prop :=
    let h := cx_of (1 / (1 + 1)) * c in
    match n_V1 F n, psi, psi' with
    | None, [p], [r] =>
      match n_I F n with
      | None => step1 F cexp Fw Bw ns c h (n_T F n) (n_V0 F n t) p r
      | Some i => step1i F cexp Fw Bw ns c h (n_T F n) (n_V0 F n t) (i t) p r
      end
    | Some v1, [p0; p1], [r0; r1] =>
      step2 F cexp Fw Bw ns c h (n_T F n) (n_V0 F n t) (v1 t)
        (match n_C F n with Some g => g t | None => repeat 0 (length (n_T F n)) end) p0 p1 r0 r1
    | _, _, _ => False
    end.
  Variable sq : F -> F.
  Definition point_ok (m1 m2 g : F) : Prop := exact_root F sq m1 m2 g /\ exact_norm F sq m1 m2 g /\ (m1 <> m2 \/ ~ olt g 0).
  (** two potentials come with a coupling and no second diagonal potential, and at all points the diagonalization works *)
  Definition regular (n : needs) : Prop := forall v1, n_V1 F n = Some v1 -> exists g, n_C F n = Some g /\
    forall t i a b x, nth_error (n_V0 F n t) i = Some a -> nth_error (v1 t) i = Some b -> nth_error (g t) i = Some x -> point_ok a b x.

  (** the needs fit together at step t: a coupling comes with a second potential, and all have the size of the kinetic energy *)
  Definition fitting (n : needs) (t : Z) : Prop :=
    (n_C F n <> None -> n_V1 F n <> None) /\ length (n_V0 F n t) = length (n_T F n) /\
    forall v, n_V1 F n = Some v \/ n_C F n = Some v \/ n_I F n = Some v -> length (v t) = length (n_T F n).

End History.
