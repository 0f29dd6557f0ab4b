(** Model of the friction operators OGridStokes (src/qdlib/OGridStokes.cpp), OGridStokesAlbrecht (src/qdlib/OGridStokesAlbrecht.cpp) and
    OGridGStokes (src/qdlib/OGridGStokes.cpp).

    Numbers are elements of an ordered field, wave functions functions on [n] points; all sizes agree.  [dv]: volume element of the scalar
    product, [sq]: the square root, [pi], [cexp]: the exponential function.  [X], [P], [T]: the position, momentum and kinetic operators,
    each as a function on wave functions (their own code is that of Model/Position.v and Model/Spectral.v).  The functions of the shape, a
    sigmoid and its integral in units of grid points (src/math/math_functions.h:79-98), are [sgm] and [sgmi]. *)
From Coq Require Import List ZArith Lia Bool.
From Verif Require Import Base Arrays Algebra Complex Ordered.
Import ListNotations.
Open Scope Z_scope.

Section Stokes.
  Variable F : ofld.
  Notation C := (Cx F).
  Notation wf := (Z -> C).
  Variable n : Z.
  Variables (dv pi : F) (sq : F -> F).
  Variables X P T : wf -> wf.
  Definition two : F := cadd c1 c1.
  Definition six : F := cadd two (cadd two two).
  Definition half : F := fdiv c1 two.

  (** scalar product, the left side conjugated; WaveFunction.h:94-101 *)
  Definition ip (a b : wf) : C := cmul (cx_of dv) (lsum (fun k => cmul (cx_conj (a k)) (b k)) (upto 0 n)).
  Definition norm (a : wf) : F := sq (fst (ip a a)).

  (** ** OGridStokesAlbrecht *)
  (** OGridStokesAlbrecht.cpp:27-45 *)
  Definition alb_init (eta R : option F) : outcome F :=
    match eta, R with Some e, Some r => Ok (cmul (cmul (cmul six pi) r) e) | _, _ => Throw end.
  (** OGridStokesAlbrecht.cpp:47-58: [buf]: initialised before; [size]: operators in the list *)
  Definition alb_ready (buf : bool) (size : Z) : outcome unit := if buf then Ok tt else if size =? 2 then Ok tt else Throw.
  (** OGridStokesAlbrecht.h: _eta, _xe, _ve *)
  Record alb := mkAlb { al_eta : F; al_xe : F; al_ve : F }.
  (** OGridStokesAlbrecht.cpp:65-85 *)
  Definition alb_apply (recalc : bool) (s : alb) (src : wf) : alb * wf :=
    let s := if recalc then mkAlb (al_eta s) (fdiv (fst (ip src (X src))) (norm src)) (cmul two (snd (ip src (X (T src))))) else s in
    (s, fun k => cmul (cadd (cmul (src k) (cx_of (copp (al_xe s)))) (X src k)) (cx_of (cmul (al_eta s) (al_ve s)))).

  (** ** OGridStokes *)
  Variables sgm sgmi : F -> F -> Z -> F.
  (** OGridStokes.h: the parameters, <x>, <p>, the shape and its integral *)
  Record stokes := mkStokes { st_mass : F; st_eta : F; st_R : F; st_c : F; st_x0 : F; st_slope : F; st_xe : F; st_pe : F; st_sig : Z -> F; st_int : Z -> F }.
  (** OGridStokes.cpp:22-53; absent "c", "x0" and "slope" are zero *)
  Definition stokes_init (mass eta R c x0 slope : option F) : outcome (F * F * F * F * F * F) :=
    let or0 (o : option F) := match o with Some v => v | None => c0 end in
    match mass, eta, R with
    | Some m, Some e, Some r =>
      let bad := match c with
                 | Some v => match ocmp v c0 with inleft (left _) => true | _ => match ocmp v c1 with inright _ => true | _ => false end end
                 | None => false
                 end in
      if bad then Throw else Ok (m, e, r, or0 c, or0 x0, or0 slope)
    | _, _, _ => Throw
    end.
  (** OGridStokes.cpp:65-74: [mem]: the memory of the new vectors; x0 in grid points *)
  Definition stokes_shape (mem : Z -> F) (xmin dx : F) (s : stokes) : stokes :=
    let x0 := fdiv (csub (st_x0 s) xmin) dx in
    let '(a, b) := match ocmp (st_slope s) c0 with
                   | inleft (right _) => (fun _ => c1, mem)
                   | _ => (sgm x0 (st_slope s), sgmi x0 (st_slope s))
                   end in
    mkStokes (st_mass s) (st_eta s) (st_R s) (st_c s) (st_x0 s) (st_slope s) (st_xe s) (st_pe s) a b.
  (** element by element with a real vector, with a real number *)
  Definition by_vec (w : wf) (d : Z -> F) : wf := fun k => cmul (w k) (cx_of (d k)).
  Definition scal (w : wf) (d : F) : wf := fun k => cmul (w k) (cx_of d).
  Definition plus (a b : wf) : wf := fun k => cadd (a k) (b k).
  Definition minus (a b : wf) : wf := fun k => csub (a k) (b k).
  (** OGridStokes.cpp:84-138 *)
  Definition stokes_apply (recalc : bool) (s : stokes) (src : wf) : stokes * wf :=
    let psi := by_vec src (st_sig s) in
    let s := if recalc then
               mkStokes (st_mass s) (st_eta s) (st_R s) (st_c s) (st_x0 s) (st_slope s)
                 (fdiv (fst (ip (X psi) psi)) (norm psi)) (fdiv (fst (ip (P psi) psi)) (norm psi)) (st_sig s) (st_int s)
             else s in
    let c := st_c s in
    let d := scal (by_vec src (st_int s)) (cmul (st_pe s) (csub c1 c)) in
    let d := plus d (scal src (cmul (cmul (st_xe s) (st_pe s)) (csub c1 c))) in
    let d := match ocmp c c0 with
             | inleft (right _) => d
             | _ =>
               let d := plus d (scal (X (by_vec (P src) (st_sig s))) (cmul half c)) in
               let d := plus d (scal (P (X psi)) (cmul half c)) in
               let d := minus d (scal (P psi) (cmul (cmul (st_xe s) c) half)) in
               minus d (scal (by_vec (P src) (st_sig s)) (cmul (cmul (st_xe s) c) half))
             end in
    (s, scal d (cmul (cmul (cmul (fdiv (st_eta s) (st_mass s)) (st_R s)) six) pi)).

  (** ** OGridGStokes *)
  Variable cexp : C -> C.
  (** OGridGStokes.cpp:49-70: the factor; GridSystem(1): one dimension without "dims" (GridSystem.cpp:101-113: refused outside 0..max) *)
  Definition gs_init (max : Z) (eta R : option F) (dims : option Z) : outcome (F * Z) :=
    match eta, R with
    | Some e, Some r =>
      let f := cmul (cmul (cmul (copp six) pi) e) r in
      match dims with
      | None => Ok (f, 1)
      | Some d => if (max <? d) || (d <? 0) then Throw else Ok (f, d)
      end
    | _, _ => Throw
    end.
  (** OGridGStokes.cpp:124-188: the factor times the time step, at each call; the operators of a dimension that the wave function has not
      refuse it (OGridNabla.cpp:65, OGridPosition.cpp:73).  [dims]: those of the parameters, [d]: those of the wave function. *)
  Definition gs_psi (dt : F) (dims d : Z) (f : F) : outcome F := if d <? dims then Throw else Ok (cmul f dt).
  (** OGridGStokes.cpp:190-249: [p i]: expectation value of operator [i] of the list, [q i]: position operator of dimension [i];
      the list has the momenta and then the positions.  Matrix elements beyond [dims] are null pointers. *)
  Definition gs_exponent (f : F) (d : Z) (G : Z -> Z -> Z -> F) (p : Z -> F) (q : Z -> Z -> F) (k : Z) : F :=
    lsum (fun i => cmul (lsum (fun j => cmul (cmul f (G i j k)) (p j)) (upto 0 d)) (q i k)) (upto 0 d).
  Definition gs_apply (f : F) (dims d : Z) (G : Z -> Z -> Z -> F) (p : Z -> F) (q : Z -> Z -> F) (src : wf) : outcome wf :=
    if 2 * dims <? d then Throw
    else if dims <? d then UB
    else Ok (fun k => cmul (cexp (cmul (cx_of (gs_exponent f d G p q k)) cx_i)) (src k)).
  (** a run: Init with the parameters, [m] times Init with the wave function, Apply *)
  Fixpoint gs_psis (m : nat) (dt : F) (dims d : Z) (f : F) : outcome F :=
    match m with O => Ok f | S m => let* f := gs_psi dt dims d f in gs_psis m dt dims d f end.
  Definition gs_run (max : Z) (eta R : option F) (par : option Z) (m : nat) (dt : F) (d : Z) (G : Z -> Z -> Z -> F) (p : Z -> F) (q : Z -> Z -> F) (src : wf) : outcome wf :=
    let* x := gs_init max eta R par in
    let* f := gs_psis m dt (snd x) d (fst x) in
    gs_apply f (snd x) d G p q src.
End Stokes.
Arguments mkAlb {F}. Arguments al_eta {F}. Arguments al_xe {F}. Arguments al_ve {F}.
Arguments mkStokes {F}. Arguments st_mass {F}. Arguments st_eta {F}. Arguments st_R {F}. Arguments st_c {F}. Arguments st_x0 {F}. Arguments st_slope {F}.
Arguments st_xe {F}. Arguments st_pe {F}. Arguments st_sig {F}. Arguments st_int {F}.
