(** Model of class Laser, src/qdlib/Laser.{h,cpp}.  Doubles are elements of a ring; c0/(4 pi) is the parameter [kfac]; the
    spectrum computed by FFTW (Steps/2+1 values) and cabs are parameters. *)
From Coq Require Import List NArith ZArith Lia Bool.
From Verif Require Import Base Arrays Algebra.
Import ListNotations.
Open Scope Z_scope.

Section Laser.
  Variable R : cring.
  Variable kfac : R.

  Record clock := mkClock { c_dt : R; c_steps : Z; c_step : Z }.
  Record laser := mkLaser { l_data : list R; l_dt : R; l_scale : R; l_clock : option clock }.

  (** Laser.cpp:10 *)
  Definition l_new (data : list R) (dt : R) : laser := mkLaser data dt c1 None.
  (** Laser.h:51 *)
  Definition l_set_scale (l : laser) (d : R) : laser := mkLaser (l_data l) (l_dt l) d (l_clock l).
  Variable eqb : R -> R -> bool.
  (** Laser.cpp:102-108; the clock is stored before it is checked *)
  Definition l_set_clock (l : laser) (c : clock) : outcome laser :=
    if negb (eqb (c_dt c) (l_dt l)) || (zlen (l_data l) <? c_steps c) then Throw
    else Ok (mkLaser (l_data l) (l_dt l) (l_scale l) (Some c)).
  (** the clock is shared: other code moves its hand *)
  Definition l_at (l : laser) (t : Z) : laser :=
    match l_clock l with
    | Some c => mkLaser (l_data l) (l_dt l) (l_scale l) (Some (mkClock (c_dt c) (c_steps c) t))
    | None => l
    end.
  (** Laser.cpp:125-128 *)
  Definition l_get (l : laser) : outcome R :=
    match l_clock l with
    | Some c => let* x := rd (l_data l) (c_step c) in Ok (cmul x (l_scale l))
    | None => UB
    end.
  (** Laser.cpp:133-136 *)
  Definition l_set (l : laser) (v : R) : outcome laser :=
    match l_clock l with
    | Some c => let* w := wr (l_data l) (c_step c) v in Ok (mkLaser w (l_dt l) (l_scale l) (l_clock l))
    | None => UB
    end.
  (** Laser.cpp:143-152 *)
  Definition l_vectorpot (l : laser) : outcome R :=
    match l_clock l with
    | Some c => let* s := foldM (fun s t => let* x := rd (l_data l) t in Ok (cadd s x)) (upto 0 (c_step c)) c0 in
                Ok (cmul s (l_dt l))
    | None => UB
    end.
  (** Laser.cpp:154-168: dest = src; the scale of dest stays *)
  Definition l_assign (dest src : laser) : laser := mkLaser (l_data src) (l_dt src) (l_scale dest) (l_clock src).
  (** Laser.cpp:173-183 *)
  Definition l_energy (l : laser) : R :=
    let d := fold_left (fun d x => cadd d (cmul x x)) (l_data l) c0 in
    cmul (cmul kfac (cmul d (l_scale l))) (l_dt l).

  (** Laser.cpp:79-90: dVec::downsize cuts the vector to Steps; spectrum of Steps/2+1 values *)
  Variable X : Type.
  Variable spectrum : list R -> list X.
  Variable cabs : X -> R.
  (** Laser.cpp:65-74 *)
  Definition l_power (l : laser) : outcome (laser * list R) :=
    match l_clock l with
    | None => UB
    | Some c =>
      let data := firstn (Z.to_nat (c_steps c)) (l_data l) in
      let spec := spectrum data in
      let* p := foldM (fun p i => let* x := rd spec i in wr p i (cabs x)) (upto 0 (zlen data))
                  (repeat c0 (Z.to_nat (c_steps c / 2 + 1))) in
      Ok (mkLaser data (l_dt l) (l_scale l) (l_clock l), p)
    end.
End Laser.
