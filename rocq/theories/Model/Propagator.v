(** Model of the propagator base class and of the generalised split operator (src/qdlib/OPropagator.h, OGSPO.cpp). *)
From Coq Require Import List ZArith Lia Bool.
From Verif Require Import Base Arrays Algebra Complex.
Import ListNotations.
Open Scope Z_scope.

(** * The exponent (OPropagator.h) *)
Section Propagator.
  Variable R : cring.
  Notation C := (Cx R).
  (** OPropagator.h:27-40: [p_dt]: the time step of the clock, [None] without a clock.  The operators in the list, to which
      Forward and Backward pass the conjugation, are left out. *)
  Record prop := mkProp { p_dt : option R; p_c0 : C; p_fwd : bool; p_imag : bool }.
  (** OPropagator.h:35 *)
  Definition p_new : prop := mkProp None c0 true false.
  Definition p_neg (x : C) : C := (copp c1 * x)%cr.
  (** OPropagator.h:44-55 *)
  Definition p_clock (p : prop) (dt : R) : prop :=
    let c := (cx_i * cx_of dt)%cr in
    let c := if p_fwd p then p_neg c else c in
    let c := if p_imag p then (cx_i * c)%cr else c in
    mkProp (Some dt) c (p_fwd p) (p_imag p).
  (** OPropagator.h:62-78 *)
  Definition p_forward (p : prop) : outcome prop :=
    match p_dt p with
    | None => Throw
    | Some dt => Ok (mkProp (p_dt p) (if p_imag p then cx_of dt else p_neg (cx_i * cx_of dt)%cr) true (p_imag p))
    end.
  (** OPropagator.h:82-98 *)
  Definition p_backward (p : prop) : outcome prop :=
    match p_dt p with
    | None => Throw
    | Some dt => Ok (mkProp (p_dt p) (if p_imag p then cx_of (copp dt) else (cx_i * cx_of dt)%cr) false (p_imag p))
    end.
  (** OPropagator.h:102-110 *)
  Definition p_imaginary (p : prop) : outcome prop :=
    match p_dt p with
    | None => UB
    | Some dt => Ok (mkProp (p_dt p) (if p_fwd p then cx_of dt else p_neg (cx_of dt)) (p_fwd p) true)
    end.
  (** OPropagator.h:124-132 *)
  Definition p_real (p : prop) : outcome prop :=
    match p_dt p with
    | None => UB
    | Some dt => Ok (mkProp (p_dt p) (if p_fwd p then p_neg (cx_i * cx_of dt)%cr else (cx_i * cx_of dt)%cr) (p_fwd p) false)
    end.
  (** OPropagator.h:112-118 *)
  Definition p_conj (p : prop) (conj : bool) : outcome prop := if conj then p_backward p else p_forward p.
  (** OPropagator.h:156-166: the copy of [q] *)
  Definition p_copy (q : prop) : prop := mkProp (p_dt q) (p_c0 q) (p_fwd q) (p_imag q).
End Propagator.

(** * The generalised split operator (OGSPO.cpp)

    [K]: complex numbers, [X]: exponents with a decidable equality and multiplication by one half.  An operator of the list
    is its diagonal exponential as a function of the time step of the clock and the exponent, whether it is declared time
    dependent, and its transformation with the normalisation factor. *)
Section GSPO.
  Variable K : cring.
  Variable X : Type.
  Variable xeqb : X -> X -> bool.
  Variable half : X -> X.
  Notation vec := (list K).
  Record trafo := mkTr { t_fwd : vec -> vec; t_bwd : vec -> vec; t_norm : K }.
  Record gop := mkGop { g_timedep : bool; g_exp : Z -> X -> vec; g_tr : option trafo }.
  (** OGSPO.h: the exponentials, _laststep and _lastexp *)
  Record gspo := mkGspo { s_exp : list vec; s_step : Z; s_last : X }.

  (** MultElements (codelets, see Model/Simd.v) *)
  Definition vmul (a b : vec) : vec := map (fun p => cmul (fst p) (snd p)) (combine a b).
  Definition vscale (k : K) (a : vec) : vec := map (cmul k) a.
  (** OGSPO.cpp:34-42: one exponential, with the normalisation of the transformation *)
  Definition one_exp (o : gop) (step : Z) (c : X) : vec :=
    let e := g_exp o step c in match g_tr o with Some t => vscale (t_norm t) e | None => e end.
  (** OGSPO.cpp:30-47 *)
  Definition init_exp (ops : list gop) (s : gspo) (step : Z) (c : X) : outcome gspo :=
    let* e := foldM (fun e i =>
      let* o := rd ops i in
      if (g_timedep o && negb (s_step s =? step)) || (s_step s =? -1) || negb (xeqb (s_last s) c)
      then wr e i (one_exp o step (if i =? 0 then c else half c)) else Ok e) (upto 0 (zlen ops)) (s_exp s) in
    Ok (mkGspo e step c).
  (** OGSPO.cpp:121-129, 132-139: one factor *)
  Definition stage (o : gop) (e psi : vec) : vec :=
    match g_tr o with
    | Some t => t_bwd t (vmul (t_fwd t psi) e)
    | None => vmul psi e
    end.
  (** OGSPO.cpp:114-140 *)
  Definition gspo_apply (ops : list gop) (s : gspo) (step : Z) (c : X) (psi : vec) : outcome (gspo * vec) :=
    let* s := init_exp ops s step c in
    let one psi i := let* o := rd ops i in let* e := rd (s_exp s) i in Ok (stage o e psi) in
    let* psi := foldM one (downto (zlen ops - 1) 1) psi in
    let* psi := foldM one (upto 0 (zlen ops)) psi in
    Ok (s, psi).
  (** OGSPO.cpp:14-19, 98: after Init(WaveFunction): exponentials with any content *)
  Definition gspo_init (junk : list vec) (zero : X) : gspo := mkGspo junk (-1) zero.
  (** OGSPO.cpp:146-164: the copy [c_junk]: exponentials with any content *)
  Definition gspo_copy (junk : list vec) (zero : X) (s : gspo) : gspo := mkGspo junk (-1) zero.
End GSPO.
