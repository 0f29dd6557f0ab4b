(** Model of matrix operators read from files, OHermitianMatrix (src/qdlib/OHermitianMatrix.cpp), the parts of FileSingle
    (src/tools/FileSingle.h) behind it, and of dipole matrices, OMatDipole (src/qdlib/OMatDipole.cpp).

    Numbers are elements of an ordered field.  [eig n d]: LAPACK's eigenvalues of the n x n matrix d, in ascending order;
    [junk n]: content of a new n x n matrix.  Matrices are stored by columns (Matrix.h:241-252).  The laser is read from a file
    (generated pulses are those of Model/Dipole.v).  Eigenvectors are not modelled, only whether they are there. *)
From Coq Require Import Ascii String List ZArith Lia Bool Arith.
From Verif Require Import Base Arrays Algebra Complex Ordered Model.Potential.
Import ListNotations.
Open Scope Z_scope.

Section MatOp.
  Variable F : ofld.
  Variable eig : nat -> list F -> list F.
  Variable junk : nat -> list F.

  (** Parameters; absent "size" is 0, absent "setzero", "qdiag", "empty" false (ParamContainer.cpp:150-257) *)
  Record mpars := mkMP { mp_size : Z; mp_file : option str; mp_zero : bool; mp_qdiag : bool; mp_empty : bool; mp_scale : option F; mp_laser : option str }.
  Definition no_mpars : mpars := mkMP 0 None false false false None None.
  (** meta file with parameters beside raw data, or a stream with the size in the payload (OHermitianMatrix.cpp:292-304) *)
  Inductive mfile := MRaw (h : mpars) (d : list F) | MStrm (n : nat) (d : list F).
  Variable fs : str -> option mfile.

  (** OHermitianMatrix.h:33-38: the parameters, size, elements, _dspace, whether _X is there, whether _XT knows it, _valid, _init *)
  Record mop := mkMop { mo_par : mpars; mo_n : nat; mo_d : list F; mo_ev : option (list F); mo_x : bool; mo_xt : bool; mo_valid : bool; mo_init : bool }.
  Definition new_mop : mop := mkMop no_mpars 0 [] None false false false false.
  Definition set_init (s : mop) (b : bool) : mop := mkMop (mo_par s) (mo_n s) (mo_d s) (mo_ev s) (mo_x s) (mo_xt s) (mo_valid s) b.
  Definition set_valid (s : mop) (b : bool) : mop := mkMop (mo_par s) (mo_n s) (mo_d s) (mo_ev s) (mo_x s) (mo_xt s) b (mo_init s).
  Definition set_d (s : mop) (d : list F) : mop := mkMop (mo_par s) (mo_n s) d (mo_ev s) (mo_x s) (mo_xt s) (mo_valid s) (mo_init s).
  Definition set_x (s : mop) : mop := mkMop (mo_par s) (mo_n s) (mo_d s) (mo_ev s) true (mo_xt s) (mo_valid s) (mo_init s).
  Definition set_par (s : mop) (p : mpars) : mop := mkMop p (mo_n s) (mo_d s) (mo_ev s) (mo_x s) (mo_xt s) (mo_valid s) (mo_init s).
  (** Matrix.h:139-146 *)
  Definition newsize (s : mop) (n : nat) : mop :=
    if (n =? mo_n s)%nat then s else mkMop (mo_par s) n (junk n) (mo_ev s) (mo_x s) (mo_xt s) (mo_valid s) (mo_init s).
  (** OHermitianMatrix.cpp:262-277 *)
  Definition init_dspace (s : mop) : mop :=
    mkMop (mo_par s) (mo_n s) (mo_d s) (Some (eig (mo_n s) (mo_d s))) true (if mo_x s then mo_xt s else true) true (mo_init s).
  (** OHermitianMatrix.cpp:134-152 *)
  Definition low_ev (s : mop) : mop * outcome F :=
    let s := if mo_valid s then s else init_dspace s in
    (s, match mo_ev s with Some (l :: _) => Ok l | _ => UB end).
  Definition high_ev (s : mop) : mop * outcome F :=
    let s := if mo_valid s then s else init_dspace s in
    (s, match mo_ev s with Some (l :: r) => Ok (last (l :: r) l) | _ => UB end).
  (** OHermitianMatrix.cpp:73-91: without file *)
  Definition init_size (s : mop) (p : mpars) : mop * outcome unit :=
    if mp_size p =? 0 then (s, Throw) else
    if mp_size p <? 0 then (s, UB) else
    let s := set_valid (newsize s (Z.to_nat (mp_size p))) false in
    (if mp_qdiag p then init_dspace (set_x s) else s, Ok tt).
  (** OHermitianMatrix.cpp:64-66: subtract from the diagonal *)
  Definition shift (n : nat) (d : list F) (m : F) : list F :=
    map (fun k => let x := nth k d c0 in if (k mod n =? k / n)%nat then csub x m else x) (seq 0 (n * n)).
  (** FileSingle.h:1101-1105, 1203-1300; a stream with too little data leaves the rest undefined *)
  Definition read_mat (s : mop) (name : str) : mop * outcome unit :=
    match fs name with
    | None => (s, Throw)
    | Some (MRaw h d) =>
      let '(s1, r) := init_size (set_par s h) h in
      match r with
      | Ok _ => if (length d <? mo_n s1 * mo_n s1)%nat then (s1, Throw) else (set_d s1 (firstn (mo_n s1 * mo_n s1) d), Ok tt)
      | r => (s1, r)
      end
    | Some (MStrm n d) =>
      let s1 := newsize s n in
      if (length d <? n * n)%nat then (s1, UB) else (set_d s1 (firstn (n * n) d), Ok tt)
    end.
  (** OHermitianMatrix.cpp:40-94; [vmin]: what the virtual Emin makes of the lowest eigenvalue; "setzero" is looked up after reading *)
  Definition mat_init (vmin : F -> outcome F) (s : mop) (p : mpars) : mop * outcome unit :=
    let s := set_par s p in
    match mp_file p with
    | Some name =>
      if mo_init s then init_size s p else
      let '(s, r) := read_mat (set_init s true) name in
      match r with
      | Ok _ =>
        if mp_zero (mo_par s) then
          let '(s, l) := low_ev s in
          match (let* l := l in vmin l) with
          | Ok m => (set_valid (set_init (set_d s (shift (mo_n s) (mo_d s) m)) false) false, Ok tt)
          | Throw => (s, Throw)
          | UB => (s, UB)
          end
        else (set_valid (set_init s false) false, Ok tt)
      | r => (s, r)
      end
    | None => init_size s p
    end.
  (** ODSpace.h:61-65: the exponents *)
  Definition exponents (s : mop) (a : Cx F) : list (Cx F) :=
    let s := match mo_ev s with None => init_dspace s | Some _ => s end in
    match mo_ev s with Some l => map (fun x => cx_scale x a) l | None => [] end.
  (** Matrix.h:303-345 *)
  Definition mat_vec (n : nat) (d : list F) (psi : list (Cx F)) : list (Cx F) :=
    map (fun i => fold_left (fun b j => cadd b (cx_scale (nth (j * n + i) d c0) (nth j psi c0))) (seq 0 n) c0) (seq 0 n).
  (** OHermitianMatrix.cpp:160-163; a wave function of another size is ignored *)
  Definition mat_apply (s : mop) (dest psi : list (Cx F)) : list (Cx F) :=
    if (mo_n s =? length psi)%nat then mat_vec (mo_n s) (mo_d s) psi else dest.

  (** ** Dipole matrices *)
  Record clock := mkClock { cl_dt : F; cl_steps : nat; cl_step : nat }.
  (** Laser.h:22-35 *)
  Record laser := mkLaser { la_data : list F; la_dt : F; la_scale : F }.
  Variable lfs : str -> option (list F * F).
  Record mdip := mkMdip { md_op : mop; md_laser : laser; md_init : bool; md_clock : option clock }.
  Definition new_mdip : mdip := mkMdip new_mop (mkLaser [] c0 c1) false None.
  (** OMatDipole.cpp:44-47 *)
  Definition dip_min (l : laser) (x : F) : outcome F := let* e := vec_min (la_data l) in Ok (cmul x e).
  (** OMatDipole.cpp:24-37, OLaser.cpp:155-174; the Init called by the file reader finds the flag set *)
  Definition mdip_init (D : mdip) (p : mpars) : mdip * outcome unit :=
    let '(l, r) :=
      if md_init D || mp_empty p then (md_laser D, Ok tt) else
      match mp_laser p with
      | None => (md_laser D, Throw)
      | Some n => match lfs n with Some (d, dt) => (mkLaser d dt (la_scale (md_laser D)), Ok tt) | None => (md_laser D, Throw) end
      end in
    match r with
    | Ok _ => let '(s, r) := mat_init (dip_min l) (md_op D) p in (mkMdip s l true (md_clock D), r)
    | r => (mkMdip (md_op D) l (md_init D) (md_clock D), r)
    end.
  (** OLaser.cpp:27-31, 108-131, Laser.cpp:106-112: "scale" of the parameters the operator has now *)
  Definition mdip_clock (D : mdip) (c : clock) : mdip * outcome unit :=
    if negb (same (cl_dt c) (la_dt (md_laser D))) || (length (la_data (md_laser D)) <? cl_steps c)%nat
    then (mkMdip (md_op D) (md_laser D) (md_init D) (Some c), Throw)
    else
      let l := match mp_scale (mo_par (md_op D)) with Some x => mkLaser (la_data (md_laser D)) (la_dt (md_laser D)) x | None => md_laser D end in
      (mkMdip (md_op D) l (md_init D) (Some c), Ok tt).
  (** Init and Clock, then the shared clock runs *)
  Definition mdip_start (p : mpars) (c : clock) (t : nat) : outcome mdip :=
    let '(D, r) := mdip_init new_mdip p in
    match r with
    | Ok _ => let '(D, r) := mdip_clock D c in
      match r with Ok _ => Ok (mkMdip (md_op D) (md_laser D) (md_init D) (Some (mkClock (cl_dt c) (cl_steps c) t))) | Throw => Throw | UB => UB end
    | Throw => Throw | UB => UB
    end.
  (** Laser.cpp:125-128 *)
  Definition mfield (D : mdip) : outcome F :=
    match md_clock D with
    | Some c => match nth_error (la_data (md_laser D)) (cl_step c) with Some e => Ok (cmul e (la_scale (md_laser D))) | None => UB end
    | None => UB
    end.
  (** OMatDipole.cpp:49-53 *)
  Definition mdip_apply (D : mdip) (dest psi : list (Cx F)) : outcome (list (Cx F)) :=
    let r := mat_apply (md_op D) dest psi in
    let* e := mfield D in
    Ok (map (fun z => cx_scale (cmul (copp c1) e) z) r).
  (** OMatDipole.cpp:85-91 *)
  Definition mdip_exponents (D : mdip) (a : Cx F) : outcome (list (Cx F)) :=
    let* e := mfield D in Ok (exponents (md_op D) (cx_scale e (cx_scale (copp c1) a))).
  (** OMatDipole.cpp:39-47 *)
  Definition mdip_emax (D : mdip) : outcome F := let* l := snd (high_ev (md_op D)) in let* e := vec_max (la_data (md_laser D)) in Ok (cmul l e).
  Definition mdip_emin (D : mdip) : outcome F := let* l := snd (low_ev (md_op D)) in let* e := vec_min (la_data (md_laser D)) in Ok (cmul l e).
End MatOp.
Arguments mkMP {F}. Arguments mp_size {F}. Arguments mp_file {F}. Arguments mp_zero {F}. Arguments mp_qdiag {F}. Arguments mp_empty {F}. Arguments mp_scale {F}. Arguments mp_laser {F}.
Arguments MRaw {F}. Arguments MStrm {F}. Arguments mkMop {F}. Arguments mo_par {F}. Arguments mo_n {F}. Arguments mo_d {F}. Arguments mo_ev {F}. Arguments mo_x {F}. Arguments mo_xt {F}.
Arguments mo_valid {F}. Arguments mo_init {F}. Arguments new_mop {F}. Arguments shift {F}. Arguments mat_apply {F}. Arguments mat_vec {F}.
Arguments mkClock {F}. Arguments cl_dt {F}. Arguments cl_steps {F}. Arguments cl_step {F}. Arguments mkLaser {F}. Arguments la_data {F}. Arguments la_dt {F}. Arguments la_scale {F}.
Arguments mkMdip {F}. Arguments md_op {F}. Arguments md_laser {F}. Arguments md_init {F}. Arguments md_clock {F}. Arguments new_mdip {F}. Arguments mfield {F}. Arguments mdip_apply {F}.
Arguments set_init {F}. Arguments set_valid {F}. Arguments set_d {F}. Arguments set_par {F}. Arguments set_x {F}. Arguments no_mpars {F}. Arguments dip_min {F}.
