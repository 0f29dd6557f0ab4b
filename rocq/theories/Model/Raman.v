(** Model of operators with several laser fields: OLaser (src/qdlib/OLaser.cpp) with more than one laser, and the Raman coupling
    OGridRaman (src/qdlib/OGridRaman.cpp).  Lasers and potentials as in Model.Dipole and Model.Potential; with more than one laser
    the operator never generates pulses. *)
From Coq Require Import Ascii String List ZArith Lia Bool Arith.
From Verif Require Import Base Arrays Algebra Complex Ordered Model.Potential Model.Dipole.
Import ListNotations.
Open Scope Z_scope.

Section Raman.
  Variable F : ofld.
  (** "laser0", "laser1", ... and "laser" *)
  Record nlpars := mkNL { nl_num : nat -> option str; nl_all : option str }.
  Variable lfs : str -> option (list F * F).

  (** OLaser.cpp:142-150 *)
  Definition laser_name (p : nlpars) (i : nat) : option str := match nl_num p i with Some n => Some n | None => nl_all p end.
  (** OLaser.cpp:138-154, Laser.cpp:219-238: lasers i, i+1, ...; those before one that cannot be read stay read *)
  Fixpoint lasers_init (p : nlpars) (i : nat) (l : list (lsr F)) : list (lsr F) * outcome unit :=
    match l with
    | [] => ([], Ok tt)
    | x :: t =>
      match laser_name p i with
      | None => (l, Throw)
      | Some n =>
        match lfs n with
        | None => (l, Throw)
        | Some (d, dt) => let '(t, r) := lasers_init p (S i) t in (mkLsr (map Some d) dt (ls_scale x) (ls_clock x) :: t, r)
        end
      end
    end.
  (** OLaser.cpp:117-120 *)
  Fixpoint lasers_clock (c : clk F) (l : list (lsr F)) : list (lsr F) * outcome unit :=
    match l with
    | [] => ([], Ok tt)
    | x :: t =>
      let '(x, r) := lsr_clock F x c in
      match r with
      | Ok _ => let '(t, r) := lasers_clock c t in (x :: t, r)
      | r => (x :: t, r)
      end
    end.
  (** OLaser.cpp:122-129 *)
  Definition lasers_scale (s : option F) (l : list (lsr F)) : list (lsr F) :=
    match s with Some s => map (fun x => mkLsr (ls_data x) (ls_dt x) s (ls_clock x)) l | None => l end.

  Variable fs : str -> option (file F).
  (** OGridRaman.h:22-26, OLaser.h:22-30 *)
  Record ram := mkRam { r_pot : pot F; r_ls : list (lsr F); r_init : bool; r_clk : option (clk F) }.
  (** OGridRaman.cpp:13-16, OLaser.cpp:15-19 *)
  Definition new_ram : ram := mkRam new_pot [new_lsr; new_lsr] false None.
  (** OGridRaman.cpp:18-29; OGridPotential::Init asks the virtual Emin (OGridRaman.cpp:41-44) for "setzero" *)
  Definition ram_init (R : ram) (p : pars F) (lp : nlpars) : ram * outcome unit :=
    let '(l, r) := if r_init R then (r_ls R, Ok tt) else lasers_init lp 0 (r_ls R) in
    match r with
    | Ok _ => let '(V, r) := pot_init F fs dip_emin (r_pot R) p in (mkRam V l true (r_clk R), r)
    | r => (mkRam (r_pot R) l (r_init R) (r_clk R), r)
    end.
  (** OLaser.cpp:27-29, 117-130; "scale" of the parameters the operator has now *)
  Definition ram_clock (R : ram) (c : clk F) : ram * outcome unit :=
    let '(l, r) := lasers_clock c (r_ls R) in
    match r with
    | Ok _ => (mkRam (r_pot R) (lasers_scale (p_scale (po_par (r_pot R))) l) (r_init R) (Some c), Ok tt)
    | r => (mkRam (r_pot R) l (r_init R) (Some c), r)
    end.
  (** the shared clock moves on *)
  Definition ram_tick (R : ram) (t : Z) : ram :=
    mkRam (r_pot R) (r_ls R) (r_init R) (option_map (fun c => mkClk (k_dt c) (k_steps c) t) (r_clk R)).
  (** the usual order of calls: Init, Clock, then the clock runs *)
  Definition ram_start (p : pars F) (lp : nlpars) (c : clk F) (t : Z) : outcome ram :=
    let '(R1, r) := ram_init new_ram p lp in
    match r with
    | Ok _ => let '(R2, r) := ram_clock R1 c in match r with Ok _ => Ok (ram_tick R2 t) | Throw => Throw | UB => UB end
    | Throw => Throw | UB => UB
    end.
  (** the value of laser i now *)
  Definition laser_now (R : ram) (i : nat) : outcome (option F) :=
    match nth_error (r_ls R) i, r_clk R with Some l, Some c => lsr_get l c | _, _ => UB end.
  Definition omul (a b : option F) : option F := match a, b with Some x, Some y => Some (cmul x y) | _, _ => None end.
  (** OGridRaman.cpp:46-54 *)
  Definition ram_apply (R : ram) (psi : list (Cx F)) : outcome (option (list (Cx F))) :=
    let* e0 := laser_now R 0 in let* e1 := laser_now R 1 in
    if zlen psi =? zlen (po_data (r_pot R)) then
      Ok (option_map (fun x => mult (map (fun m => cmul m x) (po_data (r_pot R))) psi) (omul (omul (Some (copp (fdiv c1 (cadd c1 c1)))) e0) e1))
    else UB.
  (** OGridRaman.cpp:77-81: the exponents at the grid points *)
  Definition ram_exponents (R : ram) (a : Cx F) : outcome (option (list (Cx F))) :=
    let* e0 := laser_now R 0 in let* e1 := laser_now R 1 in
    Ok (option_map (fun e => map (fun m => cmul (cmul (cmul (copp c1) a) (cx_of e)) (cx_of m)) (po_data (r_pot R))) (omul e0 e1)).
  (** OGridRaman.cpp:36-39 *)
  Definition ram_emax (R : ram) : outcome (option F) :=
    let* m := vec_max (po_data (r_pot R)) in
    match r_ls R with
    | l0 :: l1 :: _ =>
      let* e0 := nvec_max F (ls_data l0) in let* e1 := nvec_max F (ls_data l1) in
      Ok (omul (omul (Some (cmul (fdiv c1 (cadd c1 c1)) m)) e0) e1)
    | _ => UB
    end.
  (** OGridRaman.cpp:41-44 *)
  Definition ram_emin (_ : ram) : F := c0.
  (** OGridRaman.cpp:62-75, OLaser.cpp:217-220 *)
  Definition ram_copy (R o : ram) : ram :=
    mkRam (pot_copy (r_pot R) (r_pot o)) (map (fun x => lsr_assign (fst x) (snd x)) (combine (r_ls R) (r_ls o))) (r_init R) (r_clk o).
End Raman.
Arguments mkRam {F}. Arguments r_pot {F}. Arguments r_ls {F}. Arguments r_init {F}. Arguments r_clk {F}. Arguments new_ram {F}.
Arguments ram_tick {F}. Arguments laser_now {F}. Arguments ram_apply {F}. Arguments ram_exponents {F}. Arguments ram_emax {F}. Arguments ram_emin {F}. Arguments ram_copy {F}.
