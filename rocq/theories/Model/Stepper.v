(** Model of the Runge-Kutta and Chebyshev propagators (src/qdlib/ORK4.cpp, OCheby.cpp).

    Wave functions, operators and buffers as in Model/Operators.v; numbers are elements of a field, the real time step being
    one of them.  RecalcInternals (for operators that depend on the wave function) is left out. *)
From Coq Require Import List ZArith Lia Bool.
From Verif Require Import Base Arrays Algebra Model.Operators.
Import ListNotations.
Open Scope Z_scope.

Section Steppers.
  Variable F : fld.
  Variable M : cmodule F.
  Variable junk : nat -> M.
  Notation acts := (acts F M).
  Notation "a *: x" := (mscale a x) (at level 40, left associativity).
  Infix "+:" := madd (at level 50, left associativity).

  (** * Runge-Kutta *)
  (** ORK4.cpp:55-103: [c] Exponent(), [dt] clock->Dt() *)
  Definition rk4_ip (H : acts) (c dt : F) (n : nat) (psi : M) : outcome (M * nat) :=
    let half := (1 / ofZ 2)%cr in
    let* r := cp F M H (5 + n) (junk (1 + n)) psi in
    let k1 := (c / dt)%cr *: fst r in
    let b := (half * dt)%cr *: k1 +: psi in
    let* r := ip F M H (snd r) b in
    let k2 := (c / dt)%cr *: fst r in
    let b := (half * dt)%cr *: k2 +: psi in
    let* r := ip F M H (snd r) b in
    let k3 := (c / dt)%cr *: fst r in
    let b := dt *: k3 +: psi in
    let* r := ip F M H (snd r) b in
    let k4 := (c / dt)%cr *: fst r in
    let k2 := ofZ 2 *: k2 in
    let k3 := ofZ 2 *: k3 in
    let k1 := k1 +: k2 in
    let k1 := k1 +: k3 in
    let k1 := k1 +: k4 in
    let k1 := (dt / ofZ 6)%cr *: k1 in
    Ok (psi +: k1, snd r).
  (** ORK4.cpp:48-52: what is left in the destination and in the source *)
  Definition rk4_cp (H : acts) (c dt : F) (n : nat) (dest src : M) : outcome (M * M * nat) :=
    let src := dest in
    let* r := rk4_ip H c dt n src in
    Ok (dest, fst r, snd r).

  (** * Chebyshev *)
  (** OCheby.cpp:130-193, 238-293: the loop.  [stop i prev psi]: is the series taken as converged by the norm of the new
      [psi] with [prev] the wave function after the previous term; the loop variables ket0, ket1, Psi, and whether the loop
      was left.  [sg]: false for real, true for imaginary time. *)
  Record chb := mkChb { b_k0 : M; b_k1 : M; b_psi : M; b_n : nat; b_done : bool }.
  Definition cheby_term (H : acts) (imag : bool) (ex off scal e : F) (coeff : list F) (stop : Z -> M -> M -> bool) (s : chb) (i : Z) : outcome chb :=
    if b_done s then Ok s else
    let* a := rd coeff i in
    let* r := cp F M H (b_n s) (junk (b_n s)) (b_k1 s) in
    let b := (1 / scal)%cr *: (fst r +: copp off *: b_k1 s) in
    let b := (ofZ 2 * ex)%cr *: b in
    let k2 := if imag then b +: mopp (b_k0 s) else b +: b_k0 s in
    let psi := b_psi s +: (a * e)%cr *: k2 in
    if stop i (b_psi s) psi then Ok (mkChb k2 (b_k1 s) psi (snd r) true)
    else Ok (mkChb (b_k1 s) k2 psi (snd r) false).
  (** OCheby.cpp:92-128, 200-236: [ex] Exponent()/Dt(), [e] cexp(Exponent() * _offset) *)
  Definition cheby_ip (H : acts) (imag : bool) (ex off scal e : F) (coeff : list F) (order : Z) (stop : M -> Z -> M -> M -> bool) (n : nat) (psi : M) : outcome (M * nat) :=
    let k0 := psi in
    let* r := cp F M H (4 + n) (junk (1 + n)) psi in
    let k1 := fst r +: copp off *: psi in
    let k1 := (ex / scal)%cr *: k1 in
    let* a0 := rd coeff 0 in
    let* a1 := rd coeff 1 in
    let psi1 := (a0 * e)%cr *: psi +: (a1 * e)%cr *: k1 in
    let* s := foldM (cheby_term H imag ex off scal e coeff (stop psi)) (upto 2 order) (mkChb k0 k1 psi1 (snd r) false) in
    Ok (b_psi s, b_n s).
  (** OCheby.cpp:299-304: the destination; the source is only read *)
  Definition cheby_cp (H : acts) (imag : bool) (ex off scal e : F) (coeff : list F) (order : Z) (stop : M -> Z -> M -> M -> bool) (n : nat) (dest src : M) : outcome (M * nat) :=
    cheby_ip H imag ex off scal e coeff order stop n src.
  (** OCheby.cpp:182-185 (real time: the norm of the new wave function against the norm of the initial one), 281-285
      (imaginary time: against the norm after the previous term, which is 0 at first so that the quotient is not a number
      or infinite).  [near a b]: the norms of a and b differ by less than the limit relative to a's. *)
  Definition stop_real (near : M -> M -> bool) (psi0 : M) (i : Z) (prev psi : M) : bool := near psi0 psi.
  Definition stop_imag (near : M -> M -> bool) (psi0 : M) (i : Z) (prev psi : M) : bool := negb (i =? 2) && near prev psi.

  (** OCheby.cpp:442-478: the number of terms and the coefficients.  [want]: the order asked for or estimated, [given]: the
      parameter order is present, [bessel]: the values from the library, [zeroes] of them lost by underflow, [close]: two values
      differ by at most BESSEL_DELTA, [small]: the order is too small for the step (467-468). *)
  Fixpoint enough (fuel : nat) (bessel : list F) (close : F -> F -> bool) (order i : Z) : outcome Z :=
    match fuel with
    | O => Ok i
    | S fuel =>
        if i <? order then
          let* a := rd bessel (i - 1) in let* b := rd bessel (i - 2) in
          if close a b then Ok i else enough fuel bessel close order (i + 1)
        else Ok i
    end.
  Definition cheby_init (want : Z) (given : bool) (bessel : list F) (zeroes : Z) (close : F -> F -> bool) (small : Z -> bool) : outcome (Z * list F) :=
    if want <? 3 then Throw else
    let order := want - zeroes in
    let* order := if given then Ok order else enough (Z.to_nat order) bessel close order 2 in
    if small order then Throw else
    let* c0 := rd bessel 0 in
    if order <? 1 then UB else
    let* l := foldM (fun l i => let* b := rd bessel i in Ok (l ++ [(ofZ 2 * b)%cr])) (upto 1 order) [c0] in
    Ok (order, l).
End Steppers.

(** * Copies of the Runge-Kutta propagator (ORK4.cpp:17-46, 105-126)

    [O]: operators.  The list of a propagator contains the Hamiltonian under its name; [k_h]: the pointer H, [k_buf]: the
    buffers exist. *)
Section Life.
  Variable O : Type.
  Record rk := mkRk { k_list : option O; k_h : option O; k_buf : bool }.
  Definition rk_new : rk := mkRk None None false.
  (** OList.cpp: Add("hamiltonian") *)
  Definition rk_add (s : rk) (h : O) : rk := mkRk (Some h) (k_h s) (k_buf s).
  (** ORK4.cpp:31-46 *)
  Definition rk_init (s : rk) : outcome rk :=
    if k_buf s then Ok s else match k_list s with None => Throw | Some h => Ok (mkRk (k_list s) (Some h) true) end.
  (** ORK4.cpp:110-126, OList.cpp Copy: the operators in the list are copied, their names are not (C33), which matters only
      if H is looked up *)
  Definition rk_copy (this o : rk) : outcome rk := if k_buf o then Ok (mkRk (k_list this) (k_h this) true) else UB.
  (** ORK4.cpp:60: the operator that is applied *)
  Definition rk_ham (s : rk) : outcome O := if k_buf s then match k_h s with Some h => Ok h | None => UB end else UB.
End Life.
