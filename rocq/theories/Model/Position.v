(** Model of the position operator OGridPosition (src/qdlib/OGridPosition.cpp) with the parts of OGridsystem.cpp and GridSystem.cpp it uses.

    [F]: exact numbers in place of double, with [None] for not-a-number.  Views of vectors: Model/Grid.v. *)
From Coq Require Import List ZArith Lia Bool Arith.
From Verif Require Import Base Arrays Algebra Complex Ordered Model.Grid.
Import ListNotations.
Open Scope Z_scope.

Section Position.
  Variable F : ofld.
  Local Notation num := (option F).
  Definition nadd (a b : num) : num := match a, b with Some x, Some y => Some (cadd x y) | _, _ => None end.
  (** GridSystem.cpp:50-57: points, xmin and xmax of each dimension *)
  Record dim_ := mkDim { d_n : Z; d_lo : F; d_hi : F }.
  Definition sizes (g : list dim_) : list Z := map d_n g.
  (** GridSystem.cpp:207-211 times n: for one point the spacing is infinite or not a number, times 0 not a number *)
  Definition spaced (a : dim_) (n : Z) : num :=
    if d_n a =? 1 then None else Some (cmul (fdiv (csub (d_hi a) (d_lo a)) (ofZ (d_n a - 1))) (ofZ n)).
  (** OGridPosition.h:23-25 *)
  Record posn := mkPosn { s_dim : Z; s_scale : F; s_grid : list dim_; s_tab : list num }.
  (** OGridPosition.cpp:12-17 *)
  Definition posn_new : posn := mkPosn (-1) c1 [] [].
  (** the parameters "dim" and "scale" *)
  Record ppars := mkPP { pp_dim : option Z; pp_scale : option F }.
  (** OGridPosition.cpp:23-37 *)
  Definition posn_params (o : posn) (p : ppars) : outcome posn :=
    let* d := match pp_dim p with None => Ok (s_dim o) | Some d => if d <? 0 then Throw else Ok d end in
    Ok (mkPosn d (match pp_scale p with Some x => x | None => s_scale o end) (s_grid o) (s_tab o)).
  (** OGridPosition.cpp:39-54 *)
  Definition coords (a : dim_) (s : F) : list num :=
    map (fun n => match spaced a n with Some x => Some (cmul (cadd (d_lo a) x) s) | None => None end) (upto 0 (d_n a)).
  Definition no_dim : dim_ := mkDim 0 c0 c0.
  Definition init_dim (o : posn) (v : vview num) (d : nat) : outcome (vview num) :=
    let* v := view_active v d in view_op nadd v (coords (nth d (s_grid o) no_dim) (s_scale o)).
  (** OGridPosition.cpp:56-86: the state and whether it returned or threw; [None]: a wave function of another kind.
      _dim + 1 is computed in int *)
  Definition posn_psi (o : posn) (psi : option (list dim_)) : outcome (posn * bool) :=
    match psi with
    | None => Ok (o, false)
    | Some g =>
      if 0 <? zlen (s_tab o) then Ok (o, true) else
      let ds := sizes g in
      let t := repeat (Some c0) (Z.to_nat (grid_size ds)) in
      let o := mkPosn (s_dim o) (s_scale o) g t in
      if s_dim o =? 2147483647 then UB else
      if zlen g <? s_dim o + 1 then Ok (o, false) else
      let* v := foldM (init_dim o) (if s_dim o <? 0 then seq 0 (length g) else [Z.to_nat (s_dim o)]) (new_view t ds) in
      Ok (mkPosn (s_dim o) (s_scale o) g (v_data v), true)
    end.
  (** OGridPosition.cpp:88-96, GridSystem.cpp:165-190: reading a dimension that is not there is undefined *)
  Definition posn_emax (o : posn) : outcome F := let* a := rd (s_grid o) (s_dim o) in Ok (d_hi a).
  Definition posn_emin (o : posn) : outcome F := let* a := rd (s_grid o) (s_dim o) in Ok (d_lo a).
  (** OGridPosition.cpp:99-107: the codelets multiply every element; other sizes leave the arrays *)
  Definition posn_apply (o : posn) (psi : list (Cx F)) : outcome (list (option (Cx F))) :=
    if negb (zlen psi =? zlen (s_tab o)) then UB else
    Ok (map (fun x => match snd x with Some s => Some (cx_scale s (fst x)) | None => None end) (combine psi (s_tab o))).
  (** OGridPosition.cpp:115-119, OGridsystem.cpp:28-42 *)
  Definition posn_copy (t o : posn) : posn := mkPosn (s_dim t) (s_scale t) (s_grid o) (s_tab o).
End Position.
Arguments mkDim {F}. Arguments d_n {F}. Arguments d_lo {F}. Arguments d_hi {F}. Arguments sizes {F}. Arguments spaced {F}. Arguments nadd {F}. Arguments mkPosn {F}.
Arguments s_dim {F}. Arguments s_scale {F}. Arguments s_grid {F}. Arguments s_tab {F}. Arguments posn_new {F}. Arguments mkPP {F}. Arguments pp_dim {F}. Arguments pp_scale {F}.
Arguments posn_params {F}. Arguments coords {F}. Arguments no_dim {F}. Arguments init_dim {F}. Arguments posn_psi {F}. Arguments posn_emax {F}. Arguments posn_emin {F}.
Arguments posn_apply {F}. Arguments posn_copy {F}.
