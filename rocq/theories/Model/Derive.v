(** Model of the momentum space tables of the derivative operators: src/qdlib/Diff.{h,cpp} (table construction),
    src/qdlib/OGridNabla.cpp and src/qdlib/OGridNablaSq.cpp.  Floating point numbers are replaced by a field.

    [ds] are the sizes of the dimensions, [dk d] is Kspace::Dk of dimension d (Kspace.h:20-23).  The arrays of MAX_DIMS
    entries are functions of the index; the bound MAX_DIMS is not checked (GridSystem::Dim rejects larger grids). *)
From Coq Require Import List ZArith Lia Bool Arith QArith Qcanon.
From Verif Require Import Base Arrays Algebra Complex Model.Grid Model.Frequency.
Import ListNotations.
Open Scope Z_scope.

Section Derive.
  Variable F : fld.
  (** content of storage that was never written *)
  Variable u : F.

  (** Diff.h:33-50: settings and tables (an empty vector is a table not yet allocated) *)
  Record diff := mkDiff {
    f_deriv : Z; f_dim : Z;
    f_mixed : bool; f_single : bool; f_coll : bool;
    f_pfac : nat -> F;
    f_k1 : nat -> list F;
    f_mix : nat -> nat -> list F;
    f_ks : list F }.

  (** Diff.cpp:20-30 *)
  Definition new_diff (deriv : Z) (mixed : bool) : diff :=
    mkDiff deriv (-1) mixed true false (fun _ => c1) (fun _ => []) (fun _ _ => []) [].

  Definition set1 {A} (f : nat -> A) (i : nat) (x : A) : nat -> A := fun j => if (j =? i)%nat then x else f j.

  (** Diff.cpp:71-73, 98-100: allocate unless there is a table of any size *)
  Definition sized (ds : list Z) (t : list F) : list F :=
    if zlen t =? 0 then repeat u (Z.to_nat (grid_size ds)) else t.

  (** VectorView.h:91-133 and 194-208: activate a dimension and assign *)
  Definition view_set (v : vview F) (i : nat) (k : list F) : outcome (vview F) :=
    let* v := view_active v i in view_op (fun _ y => y) v k.
  (** VectorView.h:91-133 and 175-188: activate a dimension and add *)
  Definition view_add (v : vview F) (i : nat) (k : list F) : outcome (vview F) :=
    let* v := view_active v i in view_op cadd v k.

  (** Diff.cpp:69-90: one pass of the loop over the coordinates *)
  Definition init_single (ds : list Z) (dk : nat -> F) (D : diff) (i : nat) : outcome diff :=
    let t := repeat c1 (length (sized ds (f_k1 D i))) in
    let* k := (if f_deriv D =? 1 then Init1Dddx F (dk i) (size_of ds i) (f_pfac D i)
               else Init1Dd2dx2 F (dk i) (size_of ds i) (f_pfac D i)) in
    let* v := view_set (new_view t ds) i k in
    Ok (mkDiff (f_deriv D) (f_dim D) (f_mixed D) (f_single D) (f_coll D) (f_pfac D) (set1 (f_k1 D) i (v_data v))
               (f_mix D) (f_ks D)).

  (** Diff.cpp:98-114 *)
  Definition init_mixed (ds : list Z) (dk : nat -> F) (D : diff) (ij : nat * nat) : outcome diff :=
    let (i, j) := ij in
    let t := sized ds (f_mix D i j) in
    let* k := Init1Dddx F (dk i) (size_of ds i) (f_pfac D i) in
    let* v := view_set (new_view t ds) i k in
    let* k := Init1Dddx F (dk j) (size_of ds j) (f_pfac D i) in
    let* v := view_set v j k in
    Ok (mkDiff (f_deriv D) (f_dim D) (f_mixed D) (f_single D) (f_coll D) (f_pfac D) (f_k1 D)
               (set1 (f_mix D) i (set1 (f_mix D i) j (v_data v))) (f_ks D)).

  (** Diff.cpp:120-139 *)
  Definition init_coll (ds : list Z) (dk : nat -> F) (D : diff) : outcome diff :=
    let* v := foldM (fun v i =>
        let* k := Init1Dd2dx2 F (dk i) (size_of ds i) (f_pfac D i) in
        view_add v i k) (seq 0 (length ds)) (new_view (repeat c0 (Z.to_nat (grid_size ds))) ds) in
    Ok (mkDiff (f_deriv D) (f_dim D) (f_mixed D) (f_single D) (f_coll D) (f_pfac D) (f_k1 D) (f_mix D) (v_data v)).

  (** Diff.cpp:61-66: the coordinates the loop visits: from begin to before end *)
  Definition single_range (ds : list Z) (D : diff) : list nat :=
    if -1 <? f_dim D then seq (Z.to_nat (f_dim D)) (Z.to_nat (f_dim D) - Z.to_nat (f_dim D)) else seq 0 (length ds).

  (** Diff.cpp:95-96 *)
  Definition mixed_range (ds : list Z) : list (nat * nat) :=
    flat_map (fun i => map (fun j => (i, j)) (seq 0 (S i))) (seq 0 (length ds)).

  (** Diff.cpp:52-141, method FFT *)
  Definition init_kspace (ds : list Z) (dk : nat -> F) (D : diff) : outcome diff :=
    let* D := (if f_single D then foldM (init_single ds dk) (single_range ds D) D else Ok D) in
    let* D := (if f_mixed D then foldM (init_mixed ds dk) (mixed_range ds) D else Ok D) in
    if f_coll D then init_coll ds dk D else Ok D.

  (** OGridNabla.cpp:172-181 *)
  Definition nabla_dim (ds : list Z) (dk : nat -> F) (v : vview F) (d : nat) : outcome (vview F) :=
    let* k := Init1Dddx F (dk d) (size_of ds d) c1 in
    view_add v d k.

  (** OGridNabla.cpp:189-205 *)
  Definition nabla_kspace (ds : list Z) (dk : nat -> F) (dim : Z) : outcome (list F) :=
    let v := new_view (repeat c0 (Z.to_nat (grid_size ds))) ds in
    let* v := (if dim <? 0 then foldM (nabla_dim ds dk) (seq 0 (length ds)) v
               else nabla_dim ds dk v (Z.to_nat dim)) in
    Ok (v_data v).

  (** OGridNabla.cpp:54-68 (after the check of the type) *)
  Definition nabla_init (ds : list Z) (dk : nat -> F) (dim : Z) : outcome (list F) :=
    if Z.of_nat (length ds) <? dim + 1 then Throw else nabla_kspace ds dk dim.

  (** OGridNabla.cpp:71-74 *)
  Definition nabla_emax (ds : list Z) (kspace : list F) : outcome F := rd kspace (Z.quot (grid_size ds) 2).

  (** OGridNabla.cpp:83-91: factor of an element in Apply, without the normalization of the transforms *)
  Definition nabla_symbol (conj momentum : bool) (fac k : F) : Cx F :=
    let sgn := if conj then (- c1)%cr else c1 in
    if momentum then (k * (sgn * fac), c0)%cr else (c0, k * (sgn * fac))%cr.

  (** OGridNabla.cpp:155-167 and 207-211: argument of the exponential for an element; the real part of the diagonal
      space representation is never written *)
  Definition nabla_exponent (c : Cx F) (fac k : F) : Cx F := (((u, copp k) : Cx F) * (c * cx_of fac))%cr.

  (** OGridNabla.h:62-66: the fields; OGridNabla.cpp:122-141: copy; a new instance has factor 1, no momentum, dim -1 *)
  Record nabla := mkNab { n_fac : F; n_mom : bool; n_dim : Z; n_ds : list Z; n_dk : nat -> F; n_k : list F }.
  Definition new_nabla : nabla := mkNab c1 false (-1) [] (fun _ => c0) [].
  Definition nabla_copy (this o : nabla) : nabla := mkNab (n_fac o) (n_mom o) (n_dim this) (n_ds o) (n_dk o) (n_k o).
  (** OGridNabla.cpp:54-68 on an operator *)
  Definition nabla_init_op (N : nabla) (ds : list Z) (dk : nat -> F) : outcome nabla :=
    let* k := nabla_init ds dk (n_dim N) in
    Ok (mkNab (n_fac N) (n_mom N) (n_dim N) ds dk k).
End Derive.
Arguments mkDiff {F}. Arguments f_deriv {F}. Arguments f_dim {F}. Arguments f_mixed {F}. Arguments f_single {F}.
Arguments f_coll {F}. Arguments f_pfac {F}. Arguments f_k1 {F}. Arguments f_mix {F}. Arguments f_ks {F}.
Arguments n_fac {F}. Arguments n_mom {F}. Arguments n_dim {F}. Arguments n_ds {F}. Arguments n_dk {F}. Arguments n_k {F}.

(** ** OGridNablaSq with rational numbers *)
Section NablaSq.
  Open Scope Qc_scope.
  (** the number M_PI *)
  Variable pi : Qc.

  (** OGridNablaSq.cpp:37-57: factors of the dimensions (the mass array has one entry for each) *)
  Definition nsq_factors (mass : list Qc) : outcome (list Qc) :=
    match mass with
    | [] => Throw
    | _ =>
      if existsb (fun m => if Qc_eq_dec m 0 then true else false) mass then Throw else
      if existsb (fun m => match m ?= 0 with Gt => true | _ => false end) mass
      then Ok (map (fun m => - (1) / (1 + 1) / m) mass) else Throw
    end.

  (** OGridNablaSq.cpp:60-83 and 156-164: collective table of second derivatives; [dk] from the extent of the grid *)
  Definition nsq_table (ds : list Z) (dk : nat -> Qc) (mass : list Qc) : outcome (list Qc) :=
    let* f := nsq_factors mass in
    if negb (length ds =? length mass)%nat then Throw else
    let* D := init_kspace Qcf 0 ds dk (mkDiff (F := Qcf) 2 (-1) false false true (fun d => nth d f (ofZ (-1) : Qcf)) (fun _ => []) (fun _ _ => []) []) in
    Ok (f_ks D).

  (** OGridNablaSq.cpp:94-100; [dx] are the spacings *)
  Definition nsq_emax (mass : list Qc) (dx : nat -> Qc) : Qc :=
    fold_left (fun T i => match nth i mass (- (1)) ?= 0 with
                          | Gt => T + 1 / (nth i mass (- (1)) * dx i * dx i)
                          | _ => T
                          end) (seq 0 (length mass)) 0 * (pi * pi / (1 + 1)).
  (** OGridNablaSq.cpp:103-106 *)
  Definition nsq_emin : Qc := 0.
End NablaSq.
