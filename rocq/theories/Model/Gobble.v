(** Model of the absorber OGobbler: src/qdlib/OGobbler.cpp, the Butterworth filters of src/math/math_functions.h, the parts of
    OGridsystem.cpp, ODSpace.h and Operator.h used by it.

    Floating point numbers are replaced by rational numbers, together with "not a number"; infinite intermediate results
    (division by zero inside the filters) are resolved by the rules of IEEE 754 and pow. *)
From Coq Require Import List ZArith Lia Bool Arith QArith Qcanon.
From Verif Require Import Base Arrays Algebra Complex Model.Grid.
Import ListNotations.
Open Scope Z_scope.

(** a double: [None] is not-a-number *)
Definition num := option Qc.
Definition nlift (f : Qc -> Qc -> Qc) (a b : num) : num :=
  match a, b with Some x, Some y => Some (f x y) | _, _ => None end.
Definition nmul := nlift Qcmult.
Definition nadd := nlift Qcplus.
Definition qz (z : Z) : Qc := @ofZ Qcf z.

(** conversion of a double to int: towards zero *)
Definition trunc (q : Qc) : Z := Z.quot (Qnum q) (Zpos (Qden q)).

(** math_functions.h:60-69: 0/0 is not a number, i/0 is infinite and the quotient 1/(1+inf) zero *)
Definition bw_low (center : Qc) (order : Z) (i : Z) : num :=
  if Qc_eq_dec center 0 then (if i =? 0 then None else Some 0%Qc)
  else Some (1 / (1 + (qz i / center) ^ Z.to_nat (2 * order)))%Qc.
(** math_functions.h:40-49: at i = 0 the quotient is infinite, 0/0 for a centre of zero *)
Definition bw_high (center : Qc) (order : Z) (i : Z) : num :=
  if i =? 0 then (if Qc_eq_dec center 0 then None else Some 0%Qc)
  else Some (1 / (1 + (center / qz i) ^ Z.to_nat (2 * order)))%Qc.
Definition filter_vec (f : Z -> num) (n : Z) : list num := map f (upto 0 n).

(** GridSystem.h: sizes, first coordinate and spacing of each dimension *)
Record geom := mkGeom { q_ds : list Z; q_x0 : nat -> Qc; q_dx : nat -> Qc }.

(** the parameters read by the operator *)
Record gparams := mkGPar {
  p_order : option Z; p_dims : option Z; p_nip : option bool; p_gain : option Qc; p_residue : option bool;
  p_lp : nat -> option Qc; p_rp : nat -> option Qc }.

(** OGobbler.h:33-41, Operator.h:85-90, GridSystem: _lp and _lpx are one optional value; the constructor leaves _residue unset *)
Record gobbler := mkGob {
  b_lp : nat -> option Qc; b_rp : nat -> option Qc;
  b_order : Z; b_gain : Qc; b_nip : bool; b_residue : option bool;
  b_conj : bool; b_herm : bool;
  b_grid : geom; b_tab : list num; b_params : gparams }.

Definition no_grid : geom := mkGeom [] (fun _ => 0%Qc) (fun _ => 0%Qc).
Definition no_params : gparams := mkGPar None None None None None (fun _ => None) (fun _ => None).
(** OGobbler.cpp:14-21 *)
Definition new_gobbler : gobbler :=
  mkGob (fun _ => None) (fun _ => None) 0 1%Qc false None false true no_grid [] no_params.

(** GridSystem.cpp:85-102: a number of dimensions without sizes (MAX_DIMS = 4, typedefs.h:28) *)
Definition set_dim (n : Z) : outcome geom :=
  if (4 <? n) || (n <? 0) then Throw else Ok (mkGeom (repeat 0 (Z.to_nat n)) (fun _ => 0%Qc) (fun _ => 0%Qc)).

(** OGobbler.cpp:82-121 *)
Definition init_params (g : gobbler) (p : gparams) : outcome gobbler :=
  let* order := match p_order p with Some n => if n <? 1 then Throw else Ok n | None => Ok 20 end in
  let* gr := match p_dims p with Some n => set_dim n | None => Ok (b_grid g) end in
  let nip := match p_nip p with Some b => b | None => false end in
  Ok (mkGob (b_lp g) (b_rp g) order (match p_gain p with Some x => x | None => b_gain g end) nip
            (Some (match p_residue p with Some b => b | None => false end))
            (b_conj g) (if nip then false else b_herm g) gr (b_tab g) p).

(** OGobbler.cpp:48-50 and 59-61 *)
Definition edge (x : Qc) (gr : geom) (d : nat) : Qc := ((x - q_x0 gr d) / q_dx gr d)%Qc.
Definition bad_edge (x : Qc) (n : Z) : bool := (n <? trunc x) || (trunc x <? 0).

(** OGobbler.cpp:47-57: left pass; [None]: the exception was thrown, the view keeps what was done before *)
Definition left_step (g : gobbler) (v : vview num) (d : nat) : outcome (vview num * bool) :=
  match b_lp g d with
  | None => Ok (v, true)
  | Some c =>
    let x := edge c (b_grid g) d in
    let n := size_of (q_ds (b_grid g)) d in
    if bad_edge x n then Ok (v, false) else
    let* v := view_active v d in
    let* v := view_op nmul v (filter_vec (bw_low x (b_order g)) n) in
    Ok (v, true)
  end.
(** OGobbler.cpp:58-73 *)
Definition right_step (g : gobbler) (v : vview num) (d : nat) : outcome (vview num * bool) :=
  match b_rp g d with
  | None => Ok (v, true)
  | Some c =>
    let x := edge c (b_grid g) d in
    let n := size_of (q_ds (b_grid g)) d in
    if bad_edge x n then Ok (v, false) else
    let* v := view_active v d in
    let* v := view_op (if b_nip g then nadd else nmul) v (filter_vec (bw_high x (b_order g)) n) in
    Ok (v, true)
  end.
Fixpoint dim_loop (g : gobbler) (v : vview num) (l : list nat) : outcome (vview num * bool) :=
  match l with
  | [] => Ok (v, true)
  | d :: l =>
    let* vb := left_step g v d in
    if negb (snd vb) then Ok vb else
    let* vb := right_step g (fst vb) d in
    if negb (snd vb) then Ok vb else dim_loop g (fst vb) l
  end.

Definition with_tab (g : gobbler) (t : list num) : gobbler :=
  mkGob (b_lp g) (b_rp g) (b_order g) (b_gain g) (b_nip g) (b_residue g) (b_conj g) (b_herm g) (b_grid g) t (b_params g).

(** OGobbler.cpp:31-80; the flag tells whether it returned (true) or threw, with the state it leaves *)
Definition fill (g : gobbler) : outcome (gobbler * bool) :=
  let ds := q_ds (b_grid g) in
  let t := repeat (Some (if b_nip g then 0 else 1)%Qc) (Z.to_nat (grid_size ds)) in
  let* vb := dim_loop g (new_view t ds) (seq 0 (length ds)) in
  if snd vb
  then Ok (with_tab g (if Qc_eq_dec (b_gain g) 1 then v_data (fst vb) else map (fun x => nmul x (Some (b_gain g))) (v_data (fst vb))), true)
  else Ok (with_tab g (v_data (fst vb)), false).

(** OGobbler.cpp:123-163: [psi] is the grid of the wave function, [None] for another kind of wave function *)
Definition init_psi (g : gobbler) (psi : option geom) : outcome (gobbler * bool) :=
  match psi with
  | None => Ok (g, false)
  | Some q =>
    if 0 <? grid_size (q_ds (b_grid g)) then Ok (g, true) else
    let dim := length (q_ds (b_grid g)) in
    let* gr := (if (dim =? 0)%nat then set_dim (Z.of_nat (length (q_ds q))) else Ok (b_grid g)) in
    if negb (length (q_ds gr) =? length (q_ds q))%nat then Ok (g, false) else
    let own f (p : nat -> option Qc) i := if (i <? length (q_ds gr))%nat then p i else (f : nat -> option Qc) i in
    fill (mkGob (own (b_lp g) (p_lp (b_params g))) (own (b_rp g) (p_rp (b_params g))) (b_order g) (b_gain g) (b_nip g) (b_residue g)
                (b_conj g) (b_herm g) q (b_tab g) (b_params g))
  end.

(** OGobbler.cpp:220-247 with OGridsystem.cpp:28-42: neither _params nor the flags of Operator are copied *)
Definition copy (g o : gobbler) : gobbler :=
  let own (f h : nat -> option Qc) i := if (i <? length (q_ds (b_grid g)))%nat then h i else f i in
  mkGob (own (b_lp g) (b_lp o)) (own (b_rp g) (b_rp o)) (b_order o) (b_gain o) (b_nip o) (b_residue o) (b_conj g) (b_herm g)
        (b_grid o) (b_tab o) (b_params g).

(** Operator.h:219 *)
Definition set_conj (g : gobbler) (c : bool) : gobbler :=
  mkGob (b_lp g) (b_rp g) (b_order g) (b_gain g) (b_nip g) (b_residue g) c (b_herm g) (b_grid g) (b_tab g) (b_params g).

(** OGobbler.cpp:184-195 *)
Definition gob_emax (g : gobbler) : Cx Qcf := (b_gain g, 0%Qc).
Definition gob_emin (g : gobbler) : Cx Qcf := if b_nip g then (0, - b_gain g)%Qc else (0, 0)%Qc.

(** the codelets of Apply at one grid point: MultElementsComplexEqCCDd.h:27 a * (w * I) * sgn, MultElementsCDc.h a * w * c,
    MultElementsCCDd.h and MultElementsCDd.h a * w *)
Definition sgn (g : gobbler) : Qc := if b_conj g then 1%Qc else (- (1))%Qc.
Definition apply_to_at (g : gobbler) (a : Cx Qcf) (w : num) : option (Cx Qcf) :=
  match w with
  | None => None
  | Some w => Some (if b_nip g then cmul (cmul a ((0%Qc, w) : Cx Qcf)) (cx_of (R := Qcf) (sgn g)) else cmul a (cx_of (R := Qcf) w))
  end.
Definition apply_at (g : gobbler) (a : Cx Qcf) (w : num) : option (Cx Qcf) :=
  match w with
  | None => None
  | Some w => Some (if b_nip g then cmul (cmul a (cx_of (R := Qcf) w)) ((0%Qc, sgn g) : Cx Qcf) else cmul a (cx_of (R := Qcf) w))
  end.
Fixpoint zip {A B C} (f : A -> B -> C) (a : list A) (b : list B) : list C :=
  match a, b with x :: a, y :: b => f x y :: zip f a b | _, _ => [] end.
(** OGobbler.cpp:198-218: Apply(dest, source) and Apply(psi); vectors of different size are an access outside the table *)
Definition apply_to (g : gobbler) (psi : list (Cx Qcf)) : outcome (list (option (Cx Qcf))) :=
  if zlen psi =? zlen (b_tab g) then Ok (zip (apply_to_at g) psi (b_tab g)) else UB.
Definition apply_in (g : gobbler) (psi : list (Cx Qcf)) : outcome (list (option (Cx Qcf))) :=
  if zlen psi =? zlen (b_tab g) then Ok (zip (apply_at g) psi (b_tab g)) else UB.

(** the scalar product of wave functions (sum over the grid points, conjugating the bra) *)
Definition brac (a : Cx Qcf) (b : option (Cx Qcf)) : option (Cx Qcf) :=
  match b with Some b => Some (cmul (cx_conj a) b) | None => None end.
Definition osum (l : list (option (Cx Qcf))) : option (Cx Qcf) :=
  fold_right (fun a s => match a, s with Some a, Some s => Some (cadd a s) | _, _ => None end) (Some c0) l.
Definition ore (c : option (Cx Qcf)) : num := match c with Some c => Some (fst c) | None => None end.
(** OGobbler.cpp:165-182 (the factors of the volume element are left out) *)
Definition expec (g : gobbler) (psi : list (Cx Qcf)) : outcome num :=
  let* r := get_opt (b_residue g) in
  let* ket := apply_to g psi in
  if (r : bool)
  then Ok (ore (osum (map (fun k => match k with Some k => brac k (Some k) | None => None end) ket)))
  else Ok (ore (osum (zip brac psi ket))).

(** OGridsystem.cpp:58-61 and ODSpace.h:65-69: the argument of the exponential function at each grid point *)
Definition exponents (g : gobbler) (c : Cx Qcf) : list (option (Cx Qcf)) :=
  map (fun w => match w with Some w => Some (cmul c (cx_of (R := Qcf) w)) | None => None end) (b_tab g).
