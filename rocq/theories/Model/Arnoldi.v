(** Model of the Arnoldi propagator (src/qdlib/OArnoldi.cpp).

    [K]: complex numbers, [M]: wave functions, [ip]: the scalar product, [nrm]: Norm(), [tiny]: below ARNOLDI_UNDERRUN,
    [conv it t]: the error estimate after vector [it] is below the limit, [h]: the Hamiltonian (linear: RecalcInternals has no
    effect), [fresh]: content of a wave function just created.  [eig], [inv]: LAPACK's eigenvalues and eigenvectors, inverse. *)
From Coq Require Import List Lia Bool Arith.
From Verif Require Import Base Arrays Algebra.
Import ListNotations.

Section Arnoldi.
  Variable K : fld.
  Variable M : cmodule K.
  Variable ip : M -> M -> K.
  Variable nrm : M -> K.
  Variable tiny : K -> bool.
  Definition mat : Type := nat -> nat -> K.
  Variable conv : nat -> mat -> bool.
  Variable h : M -> M.
  Variable fresh : M.
  Variable eig : nat -> mat -> (nat -> K) * mat.
  Variable inv : nat -> mat -> mat.
  Open Scope cr_scope.

  Definition mset (t : mat) (i j : nat) (v : K) : mat := fun a b => if (a =? i) && (b =? j) then v else t a b.
  (** OArnoldi.h:36-49: _maxorder, _order, _Lzb, _HA *)
  Record arn := mkArn { ar_max : nat; ar_order : nat; ar_q : list M; ar_h : mat }.
  (** WFBuffer.cpp:224-250, 257-289: the buffer grows when written, elements never written are fresh wave functions *)
  Definition put (q : list M) (i : nat) (x : M) : list M := firstn i (q ++ repeat fresh (i - length q)) ++ x :: skipn (S i) q.
  Definition get (q : list M) (i : nat) : outcome M := match nth_error q i with Some x => Ok x | None => Throw end.

  (** OArnoldi.cpp:104-109: orthogonalize to the vectors before [it] *)
  Definition ortho1 (q : list M) (it : nat) (s : M * mat) (j : nat) : outcome (M * mat) :=
    let '(x, t) := s in
    let* w := get q j in
    let c := ip w x in
    Ok (madd x (mscale (- (1) * c) w), mset t j (it - 1) c).
  Definition ortho (q : list M) (it : nat) (x : M) (t : mat) : outcome (M * mat) := foldM (ortho1 q it) (seq 0 it) (x, t).
  (** OArnoldi.cpp:99-133: one pass; the flag: the loop was left *)
  Definition pass (s : nat * list M * mat * bool) (it : nat) : outcome (nat * list M * mat * bool) :=
    let '(order, q, t, stop) := s in
    if (stop : bool) then Ok s else
    let* w := get q (it - 1) in
    let* r := ortho q it (h w) t in
    let '(x, t) := r in
    let n := nrm x in
    if tiny n then Ok (order, q, t, true)
    else
      let t := mset t it (it - 1) n in
      let q := put q it (mscale (1 / n) x) in
      Ok (S it, q, t, conv it t).
  (** OArnoldi.cpp:135-139: the last column *)
  Definition last1 (q : list M) (o : nat) (x : M) (t : mat) (j : nat) : outcome mat :=
    let* w := get q j in Ok (mset t j (o - 1) (ip w x)).
  (** OArnoldi.cpp:86-153; _order is not reset.  Elements outside the _maxorder x _maxorder matrix are out of bounds. *)
  Definition build (s : arn) (psi : M) : outcome arn :=
    let* r := foldM pass (seq 1 (ar_max s - 1)) (ar_order s, put (ar_q s) 0 psi, (fun _ _ => 0) : mat, false) in
    let '(o, q, t, _) := r in
    let* w := get q (o - 1) in
    if (ar_max s <? o)%nat then UB else
    let* t := foldM (last1 q o (h w)) (seq 0 o) t in
    Ok (mkArn (ar_max s) o q t).

  (** MatVecMult *)
  Definition mv (n : nat) (A : mat) (v : nat -> K) (i : nat) : K := lsum (fun j => A i j * v j) (seq 0 n).
  Definition e0 (i : nat) : K := if (i =? 0)%nat then 1 else 0.
  (** OArnoldi.cpp:155-199; [f]: the exponential with the exponent of the propagator.  Coefficients of the new wave function. *)
  Definition coef (f : K -> K) (n : nat) (A : mat) : nat -> K :=
    let '(d, z) := eig n A in
    let l := inv n z in
    mv n z (fun i => f (d i) * mv n l e0 i).
  Definition add1 (q : list M) (v : nat -> K) (a : M) (i : nat) : outcome M := let* w := get q i in Ok (madd a (mscale (v i) w)).
  (** OArnoldi.cpp:201-214 *)
  Definition step (f : K -> K) (s : arn) (psi : M) : outcome (arn * M) :=
    let* s := build s psi in
    let v := coef f (ar_order s) (ar_h s) in
    let* r := foldM (add1 (ar_q s) v) (seq 1 (ar_order s - 1)) (mscale (v 0%nat) psi) in
    Ok (s, r).
  (** OArnoldi.cpp:40-58, 60-81: Init with order [m], then with a wave function: a buffer of [m] elements *)
  Definition arn_init (m : nat) : outcome arn := if (m <? 3)%nat then Throw else Ok (mkArn m m (repeat fresh m) (fun _ _ => 0)).
  (** OArnoldi.cpp:14-18: default order 20 *)
  Definition arn_new : arn := mkArn 20 20 [] (fun _ _ => 0).
  (** OArnoldi.cpp:222-242: _order and the buffer are not copied *)
  Definition arn_copy (this o : arn) : arn := mkArn (ar_max o) (ar_order this) (ar_q this) (ar_h this).
End Arnoldi.
Arguments mkArn {K M}. Arguments ar_max {K M}. Arguments ar_order {K M}. Arguments ar_q {K M}. Arguments ar_h {K M}. Arguments arn_new {K M}. Arguments arn_copy {K M}.
