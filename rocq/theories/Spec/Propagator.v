(** What propagators are meant to do. *)
From Coq Require Import List ZArith Bool.
From Verif Require Import Base Arrays Algebra Complex Model.Propagator.
Import ListNotations.
Open Scope Z_scope.

(** * The exponent *)
Section S.
  Variable R : cring.
  Inductive pcall := PClock (dt : R) | PForward | PBackward | PImaginary | PReal | PConj (b : bool) | PCopy.
  Definition pstep (p : prop R) (c : pcall) : outcome (prop R) :=
    match c with
    | PClock dt => Ok (p_clock R p dt)
    | PForward => p_forward R p
    | PBackward => p_backward R p
    | PImaginary => p_imaginary R p
    | PReal => p_real R p
    | PConj b => p_conj R p b
    | PCopy => Ok (p_copy R p)
    end.
  (** What was chosen: the direction and the time type last chosen, the time step of the last clock.  A direction can only
      be chosen with a clock (otherwise an exception is thrown). *)
  Record choice := mkCh { h_dt : option R; h_fwd : bool; h_imag : bool }.
  Definition chosen (h : choice) (c : pcall) : choice :=
    match c with
    | PClock dt => mkCh (Some dt) (h_fwd h) (h_imag h)
    | PForward | PConj false => match h_dt h with Some _ => mkCh (h_dt h) true (h_imag h) | None => h end
    | PBackward | PConj true => match h_dt h with Some _ => mkCh (h_dt h) false (h_imag h) | None => h end
    | PImaginary => mkCh (h_dt h) (h_fwd h) true
    | PReal => mkCh (h_dt h) (h_fwd h) false
    | PCopy => h
    end.
  (** calls one after the other; one that throws is ignored *)
  Inductive phist : prop R -> choice -> Prop :=
  | ph_new : phist (p_new R) (mkCh None true false)
  | ph_ok p h c p' : phist p h -> pstep p c = Ok p' -> phist p' (chosen h c)
  | ph_throw p h c : phist p h -> pstep p c = Throw -> phist p (chosen h c).
  (** real part and imaginary part of -i dt, i dt, dt, -dt *)
  Definition wanted (h : choice) (dt : R) : cx R :=
    match h_imag h, h_fwd h with
    | false, true => (c0, copp dt)
    | false, false => (c0, dt)
    | true, true => (dt, c0)
    | true, false => (copp dt, c0)
    end.
End S.

(** * The split operator *)
Section G.
  Variable K : cring.
  Variable X : Type.
  Variable xeqb : X -> X -> bool.
  Variable half : X -> X.
  Notation gop := (gop K X).
  (** the exponentials that belong to a time step and an exponent *)
  Definition fresh (ops : list gop) (step : Z) (c : X) : list (list K) :=
    map (fun i => match nth_error ops (Z.to_nat i) with
                  | Some o => one_exp K X o step (if i =? 0 then c else half c)
                  | None => []
                  end) (upto 0 (zlen ops)).
  (** an operator that is not declared time dependent has the same exponential at all times *)
  Definition honest (o : gop) : Prop := g_timedep K X o = false -> forall a b c, g_exp K X o a c = g_exp K X o b c.
  (** histories of steps, with any time steps and exponents, and copies *)
  Inductive ghist (ops : list gop) : gspo K X -> Prop :=
  | gh_init junk zero : zlen junk = zlen ops -> ghist ops (gspo_init K X junk zero)
  | gh_copy s junk zero : ghist ops s -> zlen junk = zlen ops -> ghist ops (gspo_copy K X junk zero s)
  | gh_step s step c psi s' psi' : ghist ops s -> gspo_apply K X xeqb half ops s step c psi = Ok (s', psi') -> ghist ops s'.

  (** a transformation of vectors of n elements and its inverse, up to the factor 1/norm *)
  Definition inverse_pair (n : Z) (t : trafo K) : Prop :=
    (forall v, zlen v = n -> zlen (t_fwd K t v) = n /\ zlen (t_bwd K t v) = n) /\
    (forall a v, zlen v = n -> t_bwd K t (vscale K a v) = vscale K a (t_bwd K t v)) /\
    exists N : K, cmul (t_norm K t) N = c1 /\
      (forall v, zlen v = n -> t_fwd K t (t_bwd K t v) = vscale K N v) /\ (forall v, zlen v = n -> t_bwd K t (t_fwd K t v) = vscale K N v).
  (** exponentials for opposite exponents are inverse to each other *)
  Definition reversible (n : Z) (o : gop) (neg : X -> X) : Prop :=
    (forall step c, zlen (g_exp K X o step c) = n) /\
    (forall step c, vmul K (g_exp K X o step c) (g_exp K X o step (neg c)) = repeat c1 (Z.to_nat n)) /\
    match g_tr K X o with Some t => inverse_pair n t | None => True end.
End G.
