(** Model of operators coupled to a laser field: OLaser (src/qdlib/OLaser.cpp), Laser (src/qdlib/Laser.cpp) as far as they use it,
    OGridDipole (src/qdlib/OGridDipole.cpp).  Numbers are elements of an ordered field; a field value that is not a number is
    [None].  exp and cos are parameters; writing a generated laser ("lasero") is left out. *)
From Coq Require Import Ascii String List ZArith Lia Bool Arith.
From Verif Require Import Base Arrays Algebra Complex Ordered Model.Potential.
Import ListNotations.
Open Scope Z_scope.

Section Dipole.
  Variable F : ofld.
  Variables fexp fcos : F -> F.

  (** QDClock: step size, number of steps, actual step (shared by everything that points to it) *)
  Record clk := mkClk { k_dt : F; k_steps : Z; k_step : Z }.

  (** ** Laser *)
  (** Laser.h:22-35: samples, step size, scale, whether there is a clock.  The clock object is the one of the operator. *)
  Record lsr := mkLsr { ls_data : list (option F); ls_dt : F; ls_scale : F; ls_clock : bool }.
  (** Laser.cpp:10 (the step size is not set) *)
  Definition new_lsr : lsr := mkLsr [] c0 c1 false.
  (** Laser.cpp:154-169: the scale is not assigned *)
  Definition lsr_assign (dest src : lsr) : lsr := mkLsr (ls_data src) (ls_dt src) (ls_scale dest) (ls_clock src).
  (** Laser.cpp:106-112: the clock is kept although it does not fit *)
  Definition lsr_clock (l : lsr) (c : clk) : lsr * outcome unit :=
    (mkLsr (ls_data l) (ls_dt l) (ls_scale l) true,
     if negb (same (k_dt c) (ls_dt l)) || (zlen (ls_data l) <? k_steps c) then Throw else Ok tt).
  (** Laser.cpp:125-128 *)
  Definition lsr_get (l : lsr) (c : clk) : outcome (option F) :=
    if ls_clock l then let* x := rd (ls_data l) (k_step c) in Ok (option_map (fun x => cmul x (ls_scale l)) x) else UB.

  (** ** Generated pulses *)
  (** parameters of one pulse; absent ones have defaults *)
  Record pulse := mkPulse { u_emax : option F; u_t0 : option F; u_sigma : option F; u_w0 : option F; u_phi : option F; u_b : option F }.
  (** "gen": gauss, gauss2 or another text *)
  Inductive gen := Gauss (p : pulse) | Gauss2 (p q : pulse) | Other.
  Definition dflt (o : option F) (d : F) : F := match o with Some x => x | None => d end.
  (** constants 0.0001 and 0.05695 of the code *)
  Variables emax0 w00 : F.
  (** OLaser.cpp:38-71, 75-106: one sample; the division by sigma*sigma = 0 gives 0/0 at t0 and minus infinity elsewhere *)
  Definition sample (c : clk) (p : pulse) (i : Z) : option F :=
    let t0 := dflt (u_t0 p) (cmul (ofZ (Z.quot (k_steps c) 2)) (k_dt c)) in
    let sigma := dflt (u_sigma p) (cmul (ofZ (Z.quot (k_steps c) 8)) (k_dt c)) in
    let d := csub (cmul (ofZ i) (k_dt c)) t0 in
    let car := fcos (cadd (cadd (cmul (dflt (u_w0 p) w00) d) (dflt (u_phi p) c0)) (cmul (cmul (dflt (u_b p) c0) d) d)) in
    if same (cmul sigma sigma) c0 then
      if same (cmul d d) c0 then None else Some (cmul (cmul (dflt (u_emax p) emax0) c0) car)
    else Some (cmul (cmul (dflt (u_emax p) emax0) (fexp (fdiv (fdiv (copp (cmul d d)) (ofZ 2)) (cmul sigma sigma)))) car).
  Definition oadd (a b : option F) : option F := match a, b with Some x, Some y => Some (cadd x y) | _, _ => None end.
  Definition samples (c : clk) (g : gen) : list (option F) :=
    map (fun i => match g with Gauss p => sample c p i | Gauss2 p q => oadd (sample c p i) (sample c q i) | Other => None end)
      (upto 0 (k_steps c)).

  (** ** OLaser with one laser *)
  (** laser parameters: "laser" and "gen" *)
  Record lpars := mkLP { lp_laser : option str; lp_gen : option gen }.
  Variable lfs : str -> option (list F * F).
  (** OLaser.h:24-30 *)
  Record olaser := mkOL { ol_laser : lsr; ol_gen : option gen }.
  Definition new_ol : olaser := mkOL new_lsr None.
  (** OLaser.cpp:155-174; reading does not touch clock and scale of the laser (Laser.cpp:219-238) *)
  Definition ol_init (o : olaser) (p : lpars) : olaser * outcome unit :=
    match lp_laser p, lp_gen p with
    | Some n, _ =>
      match lfs n with
      | Some (d, dt) => (mkOL (mkLsr (map Some d) dt (ls_scale (ol_laser o)) (ls_clock (ol_laser o))) (ol_gen o), Ok tt)
      | None => (o, Throw)
      end
    | None, Some Other => (mkOL (ol_laser o) (Some Other), Throw)
    | None, Some g => (mkOL (ol_laser o) (Some g), Ok tt)
    | None, None => (o, Throw)
    end.
  (** OLaser.cpp:27-131; [scale]: "scale" in the parameters the operator has now *)
  Definition ol_clock (o : olaser) (scale : option F) (c : clk) : olaser * outcome unit :=
    let '(l, r) :=
      match ol_gen o with
      | Some Other => (ol_laser o, Ok tt)
      | Some g => (mkLsr (samples c g) (k_dt c) (ls_scale (ol_laser o)) true, Ok tt)
      | None => lsr_clock (ol_laser o) c
      end in
    match r with
    | Ok _ => (mkOL (match scale with Some s => mkLsr (ls_data l) (ls_dt l) s (ls_clock l) | None => l end) (ol_gen o), Ok tt)
    | r => (mkOL l (ol_gen o), r)
    end.

  (** ** OGridDipole *)
  Variable fs : str -> option (file F).
  Record dip := mkDip { d_pot : pot F; d_ol : olaser; d_init : bool; d_clk : option clk }.
  (** OGridDipole.cpp:13-16 *)
  Definition new_dip : dip := mkDip new_pot new_ol false None.
  (** OGridDipole.cpp:41-44: Emin of a dipole is zero *)
  Definition dip_emin (_ : list F) : outcome F := Ok c0.
  (** OGridDipole.cpp:18-29.  An exception of OLaser::Init leaves the flag unset.  The Init called by the file reader finds it set. *)
  Definition dip_init (D : dip) (p : pars F) (lp : lpars) : dip * outcome unit :=
    let '(o, r) := if d_init D then (d_ol D, Ok tt) else ol_init (d_ol D) lp in
    match r with
    | Ok _ => let '(V, r) := pot_init F fs dip_emin (d_pot D) p in (mkDip V o true (d_clk D), r)
    | r => (mkDip (d_pot D) o (d_init D) (d_clk D), r)
    end.
  (** OLaser.cpp:27-131: the clock is kept first *)
  Definition dip_clock (D : dip) (c : clk) : dip * outcome unit :=
    let '(o, r) := ol_clock (d_ol D) (p_scale (po_par (d_pot D))) c in (mkDip (d_pot D) o (d_init D) (Some c), r).
  (** the shared clock moves on *)
  Definition dip_tick (D : dip) (t : Z) : dip :=
    mkDip (d_pot D) (d_ol D) (d_init D) (option_map (fun c => mkClk (k_dt c) (k_steps c) t) (d_clk D)).
  (** the usual order of calls: Init, Clock, then the clock runs *)
  Definition dip_start (p : pars F) (lp : lpars) (c : clk) (t : Z) : outcome dip :=
    let '(D1, r) := dip_init new_dip p lp in
    match r with
    | Ok _ => let '(D2, r) := dip_clock D1 c in match r with Ok _ => Ok (dip_tick D2 t) | Throw => Throw | UB => UB end
    | Throw => Throw | UB => UB
    end.
  Definition field (D : dip) : outcome (option F) :=
    match d_clk D with Some c => lsr_get (ol_laser (d_ol D)) c | None => UB end.
  (** OGridDipole.cpp:46-60 *)
  Definition dip_apply (D : dip) (psi : list (Cx F)) : outcome (option (list (Cx F))) :=
    let* e := field D in
    if zlen psi =? zlen (po_data (d_pot D)) then
      Ok (option_map (fun e => mult (map (fun m => cmul m (cmul (copp c1) e)) (po_data (d_pot D))) psi) e)
    else UB.
  (** OGridDipole.cpp:83-87: the exponents at the grid points *)
  Definition dip_exponents (D : dip) (a : Cx F) : outcome (option (list (Cx F))) :=
    let* e := field D in
    Ok (option_map (fun e => map (fun m => cmul (cmul (cmul (copp c1) a) (cx_of e)) (cx_of m)) (po_data (d_pot D))) e).
  (** math_functions.cpp:23-31 on a vector with values that are not numbers (comparisons with them are false) *)
  Definition oless (a b : option F) : bool := match a, b with Some x, Some y => less x y | _, _ => false end.
  Definition nvec_max (v : list (option F)) : outcome (option F) :=
    match v with [] => UB | a :: t => Ok (fold_left (fun d x => if oless d x then x else d) t a) end.
  Definition nvec_min (v : list (option F)) : outcome (option F) :=
    match v with [] => UB | a :: t => Ok (fold_left (fun d x => if oless x d then x else d) t a) end.
  (** OGridDipole.cpp:36-39 *)
  Definition dip_emax (D : dip) : outcome (option F) :=
    let* m := vec_max (po_data (d_pot D)) in let* e := nvec_max (ls_data (ol_laser (d_ol D))) in
    Ok (option_map (fun e => cmul m e) e).
  (** OGridDipole.cpp:68-81: laser, clock, potential; the parameters of generated pulses and the flag stay *)
  Definition dip_copy (D o : dip) : dip :=
    mkDip (pot_copy (d_pot D) (d_pot o)) (mkOL (lsr_assign (ol_laser (d_ol D)) (ol_laser (d_ol o))) (ol_gen (d_ol D))) (d_init D) (d_clk o).
End Dipole.
Arguments mkClk {F}. Arguments k_dt {F}. Arguments k_steps {F}. Arguments k_step {F}.
Arguments mkLsr {F}. Arguments ls_data {F}. Arguments ls_dt {F}. Arguments ls_scale {F}. Arguments ls_clock {F}.
Arguments mkPulse {F}. Arguments u_emax {F}. Arguments u_t0 {F}. Arguments u_sigma {F}. Arguments u_w0 {F}. Arguments u_phi {F}. Arguments u_b {F}.
Arguments Gauss {F}. Arguments Gauss2 {F}. Arguments Other {F}. Arguments mkLP {F}. Arguments lp_laser {F}. Arguments lp_gen {F}.
Arguments mkOL {F}. Arguments ol_laser {F}. Arguments ol_gen {F}.
Arguments mkDip {F}. Arguments d_pot {F}. Arguments d_ol {F}. Arguments d_init {F}. Arguments d_clk {F}.
Arguments new_dip {F}. Arguments dip_tick {F}. Arguments dip_apply {F}. Arguments dip_exponents {F}. Arguments dip_copy {F}. Arguments dip_emax {F}.
Arguments field {F}. Arguments lsr_get {F}. Arguments dip_emin {F}. Arguments lsr_assign {F}. Arguments new_lsr {F}. Arguments new_ol {F}.
