(** Model of grid potentials read from files: OGridPotential (src/qdlib/OGridPotential.cpp), the parts of OGridSystem
    (src/qdlib/OGridsystem.cpp), GridSystem (src/qdlib/GridSystem.cpp) and FileSingle (src/tools/FileSingle.h) behind it.
    Numbers are elements of an ordered field.  Fresh storage of a vector reads as zeros; the number of grid points does not
    overflow an int. *)
From Coq Require Import Ascii String List ZArith Lia Bool Arith.
From Verif Require Import Base Arrays Algebra Complex Ordered.
Import ListNotations.
Open Scope Z_scope.

Section Potential.
  Variable F : ofld.

  (** GridSystem: number of points, xmin and xmax of a dimension *)
  Record axis := mkAx { ax_n : Z; ax_lo : F; ax_hi : F }.
  Definition no_axis : axis := mkAx 0 c0 c0.

  (** The parameters read by the operator.  Absent "dims" is 0, absent "file" the empty string, absent "setzero" false, absent
      "offset" 0 (ParamContainer.cpp:130-257).  [p_axes]: N0, xmin0, xmax0; N1, ... as far as present. *)
  Record pars := mkPars { p_dims : Z; p_file : str; p_setzero : bool; p_offset : F; p_scale : option F; p_axes : list axis }.

  (** A file: meta file with parameters beside raw data (FileSingle.h:1292-1300), or a stream with the header of GridSystem in
      the payload (FileSingle.h:1203-1210, OGridsystem.cpp:77-97) *)
  Inductive file := Raw (h : pars) (d : list F) | Strm (g : list axis) (d : list F).
  (** The files; [None]: there is no such file, or it is no data file *)
  Variable fs : str -> option file.

  (** OGridPotential.h; [po_init]: inside of Init, a file is being read *)
  Record pot := mkPot { po_par : pars; po_grid : list axis; po_data : list F; po_init : bool }.
  Definition no_pars : pars := mkPars 0 [] false c0 None [].
  (** OGridPotential.cpp:15-17 *)
  Definition new_pot : pot := mkPot no_pars [] [] false.

  (** GridSystem.cpp:149-158 *)
  Definition points (g : list axis) : Z :=
    match g with [] => 0 | _ => fold_left (fun s a => s * ax_n a) g 1 end.
  (** Vector.h:523-531 *)
  Definition resize (v : list F) (n : Z) : list F := if zlen v =? n then v else repeat c0 (Z.to_nat n).
  (** math_functions.cpp:10-18 *)
  Definition less (a b : F) : bool := match ocmp a b with inleft (left _) => true | _ => false end.
  Definition same (a b : F) : bool := match ocmp a b with inleft (right _) => true | _ => false end.
  Definition vec_min (v : list F) : outcome F :=
    match v with [] => UB | a :: t => Ok (fold_left (fun d x => if less x d then x else d) t a) end.
  (** math_functions.cpp:23-31 *)
  Definition vec_max (v : list F) : outcome F :=
    match v with [] => UB | a :: t => Ok (fold_left (fun d x => if less d x then x else d) t a) end.

  (** OGridPotential.cpp:89-103: the dimensions set before the loop ends, and whether it ended without exception; the loop looks
      for N0 in every turn, an absent N1, N2, .. reads as 0 *)
  Fixpoint read_axes (n : nat) (l : list axis) : list axis * bool :=
    match n with
    | O => ([], true)
    | S m =>
      match l with
      | [] => (repeat no_axis n, false)
      | a :: t =>
        if ax_n a <? 1 then (repeat no_axis n, false)
        else if negb (less c0 (csub (ax_hi a) (ax_lo a))) then (a :: repeat no_axis m, false)
        else let '(r, ok) := read_axes m t in (a :: r, ok)
      end
    end.
  (** OGridPotential.cpp:82-107, GridSystem.cpp:101-114 *)
  Definition init_grid (V : pot) (p : pars) : pot * outcome unit :=
    if (4 <? p_dims p) || (p_dims p <? 0) then (V, Throw) else
    let '(g, ok) := match p_axes p with [] => (repeat no_axis (Z.to_nat (p_dims p)), true)
                    | l => read_axes (Z.to_nat (p_dims p)) l end in
    if ok then (mkPot (po_par V) g (resize (po_data V) (points g)) (po_init V), Ok tt)
    else (mkPot (po_par V) g (po_data V) (po_init V), Throw).

  Definition set_par (V : pot) (p : pars) : pot := mkPot p (po_grid V) (po_data V) (po_init V).
  Definition set_init (V : pot) (b : bool) : pot := mkPot (po_par V) (po_grid V) (po_data V) b.
  Definition set_data (V : pot) (d : list F) : pot := mkPot (po_par V) (po_grid V) d (po_init V).

  (** Reading (OGridPotential.cpp:53).  A meta file is handed to Init of the operator, which is inside of Init
      (FileSingle.h:1101-1105); then the data are read (1243-1287).  The stream sets dimensions and data (OGridsystem.cpp:77-97);
      with less data than announced the rest of the vector is undefined. *)
  Definition read_file (V : pot) (name : str) : pot * outcome unit :=
    match fs name with
    | None => (V, Throw)
    | Some (Raw h d) =>
      let '(V1, r) := init_grid (set_par V h) h in
      match r with
      | Ok _ => if (zlen (po_data V1) <=? 0) || (zlen d <? zlen (po_data V1)) then (V1, Throw)
                else (set_data V1 (firstn (length (po_data V1)) d), Ok tt)
      | r => (V1, r)
      end
    | Some (Strm g d) =>
      let V1 := mkPot (po_par V) g (resize (po_data V) (points g)) (po_init V) in
      if zlen d <? points g then (V1, UB) else (set_data V1 (firstn (Z.to_nat (points g)) d), Ok tt)
    end.

  (** Emin of the class of the operator (it is virtual) *)
  Variable emin : list F -> outcome F.

  (** OGridPotential.cpp:27-108 *)
  Definition pot_init (V : pot) (p : pars) : pot * outcome unit :=
    let V := set_par V p in
    if (p_dims p <=? 0) && negb (str_eqb (p_file p) []) && negb (po_init V) then
      let '(V1, r) := read_file (set_init V true) (p_file p) in
      match r with
      | Ok _ =>
        match (if p_setzero p then emin (po_data V1) else Ok c0) with
        | Ok m =>
          let d := if p_setzero p then map (fun x => csub x m) (po_data V1) else po_data V1 in
          let d := if same (p_offset p) c0 then d else map (fun x => cadd x (p_offset p)) d in
          let s := match p_scale p with Some s => s | None => c1 end in
          let d := if same s c1 then d else map (fun x => cmul x s) d in
          (set_init (set_data V1 d) false, Ok tt)
        | Throw => (V1, Throw)
        | UB => (V1, UB)
        end
      | r => (V1, r)
      end
    else init_grid V p.

  (** OGridPotential.cpp:156-168, OGridsystem.cpp:28-42 *)
  Definition pot_copy (V o : pot) : pot := mkPot (po_par o) (po_grid o) (po_data o) (po_init V).

  (** FileSingle.h:1306-1345: the parameters of the operator and its data *)
  Definition write_raw (V : pot) : file := Raw (po_par V) (po_data V).
  (** OGridsystem.cpp:63-75 *)
  Definition write_stream (V : pot) : file := Strm (po_grid V) (po_data V).

  (** GridSystem.cpp:248-262 and OGridPotential.cpp:111-120: [psi] is the grid of the wave function, [None] for another kind *)
  Definition near (eps a b : F) : bool := negb (less eps (oabs (csub a b))).
  Fixpoint grid_eqb (eps : F) (g h : list axis) : bool :=
    match g, h with
    | [], [] => true
    | a :: g, b :: h => (ax_n a =? ax_n b) && near eps (ax_lo a) (ax_lo b) && near eps (ax_hi a) (ax_hi b) && grid_eqb eps g h
    | _, _ => false
    end.
  Definition pot_psi (eps : F) (V : pot) (psi : option (list axis)) : outcome unit :=
    match psi with None => Throw | Some g => if grid_eqb eps (po_grid V) g then Ok tt else Throw end.

  (** OGridPotential.cpp:134-148: multiplication of the elements; the vectors must have the size of the potential *)
  Fixpoint mult (d : list F) (psi : list (Cx F)) : list (Cx F) :=
    match d, psi with x :: d, c :: psi => cx_scale x c :: mult d psi | _, _ => [] end.
  Definition pot_apply (V : pot) (psi : list (Cx F)) : outcome (list (Cx F)) :=
    if zlen psi =? zlen (po_data V) then Ok (mult (po_data V) psi) else UB.
  Fixpoint mult_add (dest : list (Cx F)) (d : list F) (psi : list (Cx F)) : list (Cx F) :=
    match dest, d, psi with y :: dest, x :: d, c :: psi => cadd y (cx_scale x c) :: mult_add dest d psi | _, _, _ => [] end.
  Definition pot_apply_add (V : pot) (dest psi : list (Cx F)) : outcome (list (Cx F)) :=
    if (zlen psi =? zlen (po_data V)) && (zlen dest =? zlen (po_data V)) then Ok (mult_add dest (po_data V) psi) else UB.
  (** OGridPotential.cpp:124-132 *)
  Definition pot_emax (V : pot) : outcome F := vec_max (po_data V).
  Definition pot_emin (V : pot) : outcome F := vec_min (po_data V).
End Potential.
Arguments mkAx {F}. Arguments ax_n {F}. Arguments ax_lo {F}. Arguments ax_hi {F}. Arguments no_axis {F}.
Arguments mkPars {F}. Arguments p_dims {F}. Arguments p_file {F}. Arguments p_setzero {F}. Arguments p_offset {F}.
Arguments p_scale {F}. Arguments p_axes {F}. Arguments Raw {F}. Arguments Strm {F}.
Arguments mkPot {F}. Arguments po_par {F}. Arguments po_grid {F}. Arguments po_data {F}. Arguments po_init {F}.
Arguments points {F}. Arguments vec_min {F}. Arguments vec_max {F}. Arguments less {F}. Arguments same {F}.
Arguments mult {F}. Arguments mult_add {F}. Arguments new_pot {F}. Arguments pot_copy {F}. Arguments write_raw {F}.
Arguments write_stream {F}. Arguments pot_apply {F}. Arguments pot_apply_add {F}. Arguments pot_emax {F}. Arguments pot_emin {F}.
Arguments read_axes {F}. Arguments init_grid {F}. Arguments resize {F}.
