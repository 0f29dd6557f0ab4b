(** Properties C20, C21, C53, C59, C60: finite differences. *)
From Coq Require Import List ZArith QArith Qabs Qcanon Lia Bool Arith.
From Verif Require Import Base Arrays Algebra Model.Grid Spec.Grid Proofs.Grid
  Model.Stencil Spec.Stencil Proofs.Stencil Model.Tables Spec.Tables Proofs.Tables.
Import ListNotations.
Open Scope Z_scope.

(** ** C20 *)
(** [h]: a difference operator whose grid was set from G and used for any dimensions before. *)
Theorem C20_stencil : forall (F : fld) (h : hofd F) g0 G acts res psi dim acc cf hf,
  let ds := g_sizes G in let p := Z.quot (h_order F h) 2 in
  h_grid F h = fold_left active_dim acts (assign g0 G) ->
  Forall (fun d => 0 < d) ds -> (dim < length ds)%nat -> zlen psi = points ds -> zlen res = points ds ->
  coeffs F h = Ok cf -> 0 <= p < zlen cf -> prefactor F h dim = Ok hf ->
  2 * p <= nth dim ds 0 ->
  exists res', diff_dim F h res psi dim acc = Ok (with_grid F h (ready g0 G acts dim), res') /\ zlen res' = points ds /\
    forall cs, in_box ds cs ->
      value res' (flat ds cs) =
      cadd (if acc then value res (flat ds cs) else c0)
           (cmul hf (deriv_at cf p (odd_deriv F h) (h_pbc F h) ds dim psi cs)).
Proof. exact diff_dim_spec. Qed.
Print Assumptions C20_stencil.

(** the condition on the number of points is necessary: with fewer points the code leaves the vector *)
Theorem C20_needs_points : forall (F : fld) (h : hofd F) g0 G acts res psi dim acc hr,
  let ds := g_sizes G in let p := Z.quot (h_order F h) 2 in
  h_grid F h = fold_left active_dim acts (assign g0 G) ->
  Forall (fun d => 0 < d) ds -> (dim < length ds)%nat -> zlen psi = points ds -> 1 <= p ->
  diff_dim F h res psi dim acc = Ok hr -> 2 * p <= nth dim ds 0.
Proof. exact diff_dim_small. Qed.
Print Assumptions C20_needs_points.

Definition q (a : Z) (b : positive) : Qc := Q2Qc (a # b).
(** first derivative, orders 2 and 4 *)
Definition tab1 : list (list Qcf) := [[q (-1) 2; q 0 1]; [q 1 12; q (-2) 3; q 0 1]].
Definition op1 (order : Z) (pbc : bool) (ds : list Z) : hofd Qcf :=
  mkHofd Qcf 1 order pbc tab1 (q 1 1) (map (fun _ => q 1 1) ds) (assign new_grid (set_sizes new_grid ds)) (map (fun _ => q 1 2) ds).
Definition out (r : outcome (hofd Qcf * list Qcf)) : outcome (list Q) :=
  match r with Ok (_, l) => Ok (map this l) | Throw => Throw | UB => UB end.
Definition vec (l : list Z) : list Qcf := map (fun z => q z 1) l.

Example C20_example :
  let ds := [2; 3] in
  h_grid Qcf (op1 2 true ds) = fold_left active_dim [] (assign new_grid (set_sizes new_grid ds)) /\
  coeffs Qcf (op1 2 true ds) = Ok [q (-1) 2; q 0 1] /\ (exists hf, prefactor Qcf (op1 2 true ds) 1 = Ok hf /\ this hf = 2#1) /\
  out (diff_dim Qcf (op1 2 true ds) (vec [0;0;0;0;0;0]) (vec [1;2; 4;8; 16;32]) 1 false) =
    Ok [(-12)#1; (-24)#1; 15#1; 30#1; (-3)#1; (-6)#1]%Q /\
  out (diff_dim Qcf (op1 2 false ds) (vec [0;0;0;0;0;0]) (vec [1;2; 4;8; 16;32]) 1 false) =
    Ok [4#1; 8#1; 15#1; 30#1; (-4)#1; (-8)#1]%Q /\
  out (diff_dim Qcf (op1 4 false [3]) (vec [0;0;0]) (vec [1;2;3]) 0 false) = UB.
Proof.
  cbv zeta. split; [reflexivity|]. split; [reflexivity|]. split; [eexists; split; [reflexivity|vm_compute; reflexivity]|].
  vm_compute. auto.
Qed.

Definition pf (h : hofd Qcf) (d : nat) : Qcf := match prefactor Qcf h d with Ok x => x | _ => q 0 1 end.

Definition outl (r : outcome (list Qcf)) : outcome (list Q) :=
  match r with Ok l => Ok (map this l) | Throw => Throw | UB => UB end.
Lemma this_value (r : list Qcf) i : 0 <= i -> this (value r i) = nth (Z.to_nat i) (map this r) (0#1)%Q.
Proof.
  intros H. unfold value, rd. rewrite (proj2 (Z.leb_le 0 i) H). change (0#1)%Q with (this (q 0 1)). rewrite map_nth.
  destruct (nth_error r (Z.to_nat i)) eqn:E; [rewrite (nth_error_nth _ _ _ E); reflexivity|].
  apply nth_error_None in E. rewrite nth_overflow by exact E. reflexivity.
Qed.

(** ** C21 *)
Definition C21_full : Prop := forall (F : fld) (h : hofd F) g0 G acts res psi acc cf (hf : nat -> F),
  let ds := g_sizes G in let p := Z.quot (h_order F h) 2 in
  h_grid F h = fold_left active_dim acts (assign g0 G) ->
  Forall (fun d => 0 < d) ds -> ds <> [] -> zlen psi = points ds -> zlen res = points ds ->
  coeffs F h = Ok cf -> 0 <= p < zlen cf ->
  (forall d, (d < length ds)%nat -> prefactor F h d = Ok (hf d) /\ 2 * p < nth d ds 0) ->
  exists res', diff_all F h res psi acc = Ok res' /\ zlen res' = points ds /\
    forall cs, in_box ds cs ->
      value res' (flat ds cs) =
      cadd (if acc then value res (flat ds cs) else c0)
           (lsum (fun d => cmul (hf d) (deriv_at cf p (odd_deriv F h) (h_pbc F h) ds d psi cs)) (seq 0 (length ds))).

(** The operator used in propagations differentiates dimension by dimension and does give the sum. *)
Theorem C21_operator_sum : forall (F : fld) (o : ohofd F) h g0 G acts dest src cf (hf : nat -> F),
  let ds := g_sizes G in let p := Z.quot (h_order F h) 2 in
  o_dim F o = -1 -> o_hofd F o = Some h -> o_sizes F o = ds -> ds <> [] ->
  h_grid F h = fold_left active_dim acts (assign g0 G) ->
  Forall (fun d => 0 < d) ds -> zlen src = points ds -> zlen dest = points ds ->
  coeffs F h = Ok cf -> 0 <= p < zlen cf ->
  (forall d, (d < length ds)%nat -> prefactor F h d = Ok (hf d) /\ 2 * p <= nth d ds 0) ->
  exists r, o_apply F o dest src = Ok r /\ zlen r = points ds /\
    forall cs, in_box ds cs ->
      value r (flat ds cs) =
      lsum (fun d => cmul (hf d) (deriv_at cf p (odd_deriv F h) (h_pbc F h) ds d src cs)) (seq 0 (length ds)).
Proof. exact o_apply_spec. Qed.
Print Assumptions C21_operator_sum.

(** HOFD::Diff over all dimensions: right on one dimensional periodic grids ... *)
Theorem C21_all_1d_periodic_partial : forall (F : fld) (h : hofd F) g0 G acts res psi acc cf hf n,
  let p := Z.quot (h_order F h) 2 in
  g_sizes G = [n] -> 0 < n -> h_pbc F h = true ->
  h_grid F h = fold_left active_dim acts (assign g0 G) ->
  zlen psi = n -> zlen res = n ->
  coeffs F h = Ok cf -> 0 <= p < zlen cf -> prefactor F h 0 = Ok hf -> p <= n ->
  exists res', diff_all F h res psi acc = Ok res' /\ zlen res' = n /\
    forall i, 0 <= i < n ->
      value res' (flat [n] [i]) = cadd (if acc then value res (flat [n] [i]) else c0)
                         (cmul hf (deriv_at cf p (odd_deriv F h) true [n] 0 psi [i])).
Proof. exact diff_all_1d. Qed.
Print Assumptions C21_all_1d_periodic_partial.

(** ... wrong for non-periodic boundaries (the left edge still wraps around) and for several dimensions *)
Theorem C21_all_refuted : ~ C21_full.
Proof.
  intros H. specialize (H Qcf (op1 2 false [3]) new_grid (set_sizes new_grid [3]) [] (vec [0;0;0]) (vec [0;0;1]) false
    [q (-1) 2; q 0 1] (pf (op1 2 false [3]))). cbv zeta in H.
  destruct H as (r & E & _ & V); try reflexivity; try discriminate.
  - repeat constructor.
  - cbn; lia.
  - intros [|d] Hd; [|cbn in Hd; lia]. split; [|cbn; lia]. reflexivity.
  - specialize (V [0]). apply (f_equal outl) in E. change (outl (Ok r)) with (Ok (map this r)) in E.
    assert (E' : map this r = match outl (diff_all Qcf (op1 2 false [3]) (vec [0;0;0]) (vec [0;0;1]) false) with Ok l => l | _ => [] end)
      by (rewrite E; reflexivity). clear E.
    assert (B : in_box (g_sizes (set_sizes new_grid [3])) [0]) by (constructor; [lia|constructor]).
    specialize (V B). apply (f_equal this) in V. rewrite this_value in V by (cbn; lia). rewrite E' in V.
    vm_compute in V. discriminate.
Qed.
Print Assumptions C21_all_refuted.

Definition oop (order : Z) (pbc : bool) (ds : list Z) : ohofd Qcf :=
  mkO Qcf 1 order (-1) (q 1 1) (Some (op1 order pbc ds)) (map (fun _ => q 1 1) ds) ds.
Example C21_example :
  (* periodic, one dimension: all-at-once and single dimension agree *)
  outl (diff_all Qcf (op1 2 true [4]) (vec [0;0;0;0]) (vec [1;2;4;8]) false) =
    Ok [(-6)#1; 3#1; 6#1; (-3)#1]%Q /\
  outl (o_apply Qcf (oop 2 true [4]) (vec [0;0;0;0]) (vec [1;2;4;8])) = Ok [(-6)#1; 3#1; 6#1; (-3)#1]%Q /\
  (* periodic, two dimensions: they differ *)
  outl (o_apply Qcf (oop 2 true [3; 3]) (vec [0;0;0;0;0;0;0;0;0]) (vec [1;0;0;0;0;0;0;0;0])) =
    Ok [0#1; (-1)#1; 1#1; (-1)#1; 0#1; 0#1; 1#1; 0#1; 0#1]%Q /\
  outl (diff_all Qcf (op1 2 true [3; 3]) (vec [0;0;0;0;0;0;0;0;0]) (vec [1;0;0;0;0;0;0;0;0]) false) =
    Ok [0#1; (-1)#1; 1#1; 0#1; (-1)#1; 1#1; 0#1; (-1)#1; 1#1]%Q.
Proof. vm_compute. auto. Qed.

(** ** C53 *)
Definition kinetic_at (F : fld) (mass dx : list F) (cf : list F) p deriv pbc ds src cs : F :=
  lsum (fun d => cmul (fdiv (ofZ (-1)) (cmul (ofZ 2) (nth d mass c0)))
                 (cmul (fdiv c1 (fpow F (nth d dx c0) (Z.to_nat deriv))) (deriv_at cf p (Z.odd deriv) pbc ds d src cs)))
       (seq 0 (length ds)).

Definition C53_full : Prop := forall (F : fld) feqb above table deriv order pbc (G : grid) dx mass o1 o cf dest src,
  let ds := g_sizes G in let p := Z.quot order 2 in
  o_init_params F table deriv order (-1) pbc = Ok o1 ->
  o_init_wf F feqb above o1 G dx (Some mass) = Ok o ->
  Forall (fun d => 0 < d) ds -> ds <> [] -> zlen src = points ds -> zlen dest = points ds ->
  length dx = length ds -> length mass = length ds ->
  rd table (Z.quot ((deriv - 1) * 50) 2 + p - 1) = Ok cf -> p < zlen cf ->
  (forall d, (d < length ds)%nat -> 2 * p <= nth d ds 0) ->
  exists r, o_apply F o dest src = Ok r /\ zlen r = points ds /\
    forall cs, in_box ds cs -> value r (flat ds cs) = kinetic_at F mass dx cf p deriv pbc ds src cs.

(** What the code does: the mass of the last dimension is used for every dimension. *)
Theorem C53_last_mass : forall (F : fld) feqb above table deriv order pbc (G : grid) dx mass o1 o cf dest src,
  let ds := g_sizes G in let p := Z.quot order 2 in
  o_init_params F table deriv order (-1) pbc = Ok o1 ->
  o_init_wf F feqb above o1 G dx (Some mass) = Ok o ->
  Forall (fun d => 0 < d) ds -> ds <> [] -> zlen src = points ds -> zlen dest = points ds ->
  length dx = length ds ->
  rd table (Z.quot ((deriv - 1) * 50) 2 + p - 1) = Ok cf -> p < zlen cf ->
  (forall d, (d < length ds)%nat -> 2 * p <= nth d ds 0) ->
  exists r m, rd mass (Z.of_nat (length ds - 1)) = Ok m /\ o_apply F o dest src = Ok r /\ zlen r = points ds /\
    forall cs, in_box ds cs ->
      value r (flat ds cs) =
      lsum (fun d => cmul (fdiv (ofZ (-1)) (cmul (ofZ 2) m)) (cmul (fdiv c1 (fpow F (nth d dx c0) (Z.to_nat deriv)))
                     (deriv_at cf p (Z.odd deriv) pbc ds d src cs))) (seq 0 (length ds)).
Proof. exact kinetic_spec. Qed.
Print Assumptions C53_last_mass.

(** hence right when all masses are equal (in particular in one dimension) *)
Theorem C53_equal_masses_partial : forall (F : fld) feqb above table deriv order pbc (G : grid) dx mass o1 o cf dest src,
  let ds := g_sizes G in let p := Z.quot order 2 in
  o_init_params F table deriv order (-1) pbc = Ok o1 ->
  o_init_wf F feqb above o1 G dx (Some mass) = Ok o ->
  Forall (fun d => 0 < d) ds -> ds <> [] -> zlen src = points ds -> zlen dest = points ds ->
  length dx = length ds -> length mass = length ds ->
  rd table (Z.quot ((deriv - 1) * 50) 2 + p - 1) = Ok cf -> p < zlen cf ->
  (forall d, (d < length ds)%nat -> 2 * p <= nth d ds 0) ->
  (forall d, (d < length ds)%nat -> nth d mass c0 = nth 0 mass c0) ->
  exists r, o_apply F o dest src = Ok r /\ zlen r = points ds /\
    forall cs, in_box ds cs -> value r (flat ds cs) = kinetic_at F mass dx cf p deriv pbc ds src cs.
Proof. exact kinetic_equal. Qed.
Print Assumptions C53_equal_masses_partial.

(** masses of 0 are refused *)
Theorem C53_zero_mass : forall (F : fld) feqb above (o1 : ohofd F) h (G : grid) dx mass d,
  o_hofd F o1 = Some h -> -1 <= o_dim F o1 < Z.of_nat (length (g_sizes G)) -> (length (g_sizes G) <= length mass)%nat ->
  (d < length (g_sizes G))%nat -> feqb (nth d mass c0) c0 = true -> o_init_wf F feqb above o1 G dx (Some mass) = Throw.
Proof. exact zero_mass. Qed.
Print Assumptions C53_zero_mass.
(** a copy of the operator has neither the difference operator nor the masses of the original *)
Theorem C53_copy_code : forall (F : fld) (this o : ohofd F) dest src, o_hofd F this = None -> o_apply F (o_copy F this o) dest src = UB.
Proof. intros F this o dest src H. unfold o_apply, o_copy. cbn [o_hofd]. rewrite H. reflexivity. Qed.
Print Assumptions C53_copy_code.
(** second derivative, order 2 (row 25) *)
Definition tab2 : list (list Qcf) := repeat [] 25 ++ [[q 1 1; q (-2) 1]].
Definition kin (mass : list Qcf) (ds : list Z) : outcome (ohofd Qcf) :=
  let* o := o_init_params Qcf tab2 2 2 (-1) true in
  o_init_wf Qcf (fun a b => Qeq_bool (this a) (this b)) (fun a => negb (Qle_bool (this a) (-1#1)))
            o (set_sizes new_grid ds) (map (fun _ => q 1 1) ds) (Some mass).

Theorem C53_mass_refuted : ~ C53_full.
Proof.
  intros H.
  destruct (o_init_params Qcf tab2 2 2 (-1) true) as [o1| |] eqn:E1; [|discriminate|discriminate].
  destruct (kin (vec [1; 2]) [2; 2]) as [o| |] eqn:E2; [|exfalso|exfalso].
  2,3: apply (f_equal (fun x => match x with Ok _ => true | _ => false end)) in E2; vm_compute in E2; discriminate.
  pose proof E2 as E3. unfold kin in E3. rewrite E1 in E3. cbn [bind] in E3.
  specialize (H Qcf _ _ tab2 2 2 true _ _ _ o1 o [q 1 1; q (-2) 1] (vec [0;0;0;0]) (vec [1;0;0;0]) E1 E3).
  cbv zeta in H. destruct H as (r & E & _ & V); try reflexivity; try discriminate.
  - repeat constructor.
  - intros [|[|d]] Hd; cbn in *; lia.
  - specialize (V [1; 0]).
    assert (E' : map this r = match outl (let* o := kin (vec [1; 2]) [2; 2] in o_apply Qcf o (vec [0;0;0;0]) (vec [1;0;0;0])) with
                              | Ok l => l | _ => [] end) by (rewrite E2; cbn [bind]; rewrite E; reflexivity).
    clear E E2 E3.
    assert (B : in_box (g_sizes (set_sizes new_grid [2; 2])) [1; 0]) by (cbn; unfold in_box; repeat (apply Forall2_cons; [lia|]); apply Forall2_nil).
    specialize (V B). apply (f_equal this) in V. rewrite this_value in V by (cbn; lia). rewrite E' in V.
    vm_compute in V. discriminate.
Qed.
Print Assumptions C53_mass_refuted.

Example C53_example :
  outl (let* o := kin (vec [2; 2]) [2; 2] in o_apply Qcf o (vec [0;0;0;0]) (vec [1;0;0;0])) =
    Ok [1#1; (-1)#2; (-1)#2; 0#1]%Q /\
  outl (let* o := kin (vec [1; 2]) [2; 2] in o_apply Qcf o (vec [0;0;0;0]) (vec [1;0;0;0])) =
    Ok [1#1; (-1)#2; (-1)#2; 0#1]%Q /\
  (* fewer masses than dimensions: read outside the array *)
  (let* _ := kin (vec [1]) [2; 2] in Ok tt) = UB.
Proof. vm_compute. auto. Qed.

(** ** C59 *)
Definition mixed_at (F : fld) (cf : list F) p odd ds d1 d2 (psi : list F) cs : F :=
  stencil (weight (value cf) p odd) p
    (extend true (nth d2 ds 0) (fun k => deriv_at cf p odd true ds d1 psi (set_coord d2 k cs))) (nth d2 cs 0).

Definition C59_full : Prop := forall (F : fld) (h : hofd F) g0 G acts res buf psi d1 d2 cf h1 h2,
  let ds := g_sizes G in let p := Z.quot (h_order F h) 2 in
  h_grid F h = fold_left active_dim acts (assign g0 G) ->
  Forall (fun d => 0 < d) ds -> (d1 < length ds)%nat -> (d2 < length ds)%nat -> d1 <> d2 ->
  zlen psi = points ds -> zlen res = points ds -> zlen buf = points ds ->
  coeffs F h = Ok cf -> 0 <= p < zlen cf -> prefactor F h d1 = Ok h1 -> prefactor F h d2 = Ok h2 ->
  (forall d, (d < length ds)%nat -> nth d (h_pfac F h) c0 = c1 /\ 2 * p < nth d ds 0) ->
  exists rb, diff_mixed F h res buf psi d1 d2 false = Ok rb /\ zlen (fst rb) = points ds /\
    forall cs, in_box ds cs ->
      value (fst rb) (flat ds cs) = cmul (cmul h1 h2) (mixed_at F cf p (odd_deriv F h) ds d1 d2 psi cs).

(** With fewer than 16 points along the first dimension nothing is computed, whatever the input. *)
Theorem C59_small_grid_unchanged : forall (F : fld) (h : hofd F) g0 G acts res buf psi d1 d2 cf h1 h2 acc,
  let ds := g_sizes G in
  h_grid F h = fold_left active_dim acts (assign g0 G) ->
  (d1 < length ds)%nat -> (d2 < length ds)%nat ->
  coeffs F h = Ok cf -> prefactor F h d1 = Ok h1 -> prefactor F h d2 = Ok h2 ->
  0 <= nth d1 ds 0 < 16 ->
  diff_mixed F h res buf psi d1 d2 acc = Ok (res, buf).
Proof. exact mixed_small. Qed.
Print Assumptions C59_small_grid_unchanged.

(** The blocks: the smallest divisor from the given size on; a size that is too large stays. *)
Theorem C59_block : forall b n, 1 <= b ->
  (n < b -> block_size b n = b) /\
  (b <= n -> b <= block_size b n <= n /\ n mod block_size b n = 0 /\ forall k, b <= k < block_size b n -> n mod k <> 0).
Proof. exact block_size_ok. Qed.
Print Assumptions C59_block.
Theorem C59_mixed_refuted : ~ C59_full.
Proof.
  intros H.
  specialize (H Qcf (op1 2 true [3; 3]) new_grid (set_sizes new_grid [3; 3]) [] (vec [0;0;0;0;0;0;0;0;0]) (vec [0;0;0;0;0;0;0;0;0])
    (vec [1;0;0;0;0;0;0;0;0]) 0%nat 1%nat [q (-1) 2; q 0 1] (pf (op1 2 true [3; 3]) 0) (pf (op1 2 true [3; 3]) 1)). cbv zeta in H.
  destruct H as (rb & E & _ & V); try reflexivity; try discriminate.
  - repeat constructor.
  - repeat constructor.
  - repeat constructor.
  - cbn; lia.
  - intros [|[|d]] Hd; [| |cbn in Hd; lia]; (split; [reflexivity|cbn; lia]).
  - specialize (V [1; 1]).
    assert (E' : map this (fst rb) = match outl (let* rb := diff_mixed Qcf (op1 2 true [3; 3]) (vec [0;0;0;0;0;0;0;0;0])
        (vec [0;0;0;0;0;0;0;0;0]) (vec [1;0;0;0;0;0;0;0;0]) 0 1 false in Ok (fst rb)) with Ok l => l | _ => [] end)
      by (rewrite E; reflexivity). clear E.
    assert (B : in_box (g_sizes (set_sizes new_grid [3; 3])) [1; 1]) by (cbn; unfold in_box; repeat (apply Forall2_cons; [lia|]); apply Forall2_nil).
    specialize (V B). apply (f_equal this) in V. rewrite this_value in V by (cbn; lia). rewrite E' in V.
    vm_compute in V. discriminate.
Qed.
Print Assumptions C59_mixed_refuted.

(** 16 by 32 points: rows 16 to 30 of the result keep their old contents (here 7); 16 by 16: access before the vector *)
Definition fill (n : nat) (z : Z) : list Qcf := map (fun _ => q z 1) (seq 0 n).
Example C59_example :
  (let* rb := diff_mixed Qcf (op1 2 true [16; 32]) (fill 512 7) (fill 512 0) (fill 512 1) 0 1 false in
   Ok (map (fun j => this (value (fst rb) (16 * j))) (upto 0 32))) =
  Ok (map (fun j => if (16 <=? j) && (j <? 31) then 7#1 else 0#1)%Q (upto 0 32)) /\
  outl (let* rb := diff_mixed Qcf (op1 2 true [16; 16]) (fill 256 7) (fill 256 0) (fill 256 1) 0 1 false in Ok (fst rb)) = UB.
Proof. vm_compute. auto. Qed.

(** ** C60 *)
Theorem C60_tables : forall d p, 1 <= d <= 2 -> 1 <= p <= 25 ->
  exists row exact, rd cfd_table (Z.quot ((d - 1) * 50) 2 + p - 1) = Ok row /\ p < zlen row /\
    moments (side_weight exact p d) p d /\
    forall j, 0 <= j <= p ->
      (Qabs (nth (Z.to_nat j) row 0 - exact j) <= (1 # Z.to_pos (10 ^ 16)) * (if (j =? p)%Z then 1 else Qabs (exact j)))%Q.
Proof. exact table_near. Qed.
Print Assumptions C60_tables.

(** the accepted settings are exactly those covered by the tables *)
Theorem C60_setup : forall deriv order,
  check_setup deriv order = Ok tt <-> 1 <= deriv <= 2 /\ exists p, order = 2 * p /\ 1 <= p <= 25.
Proof. exact setup_ok. Qed.
Print Assumptions C60_setup.

Example C60_example :
  check_setup 2 50 = Ok tt /\ check_setup 2 52 = Throw /\ check_setup 3 4 = Throw /\
  (exists row, rd cfd_table 26 = Ok row /\ nth 0 row 0%Q = (-833333333333333333 # Z.to_pos (10 ^ 19))%Q).
Proof. split; [reflexivity|]. split; [reflexivity|]. split; [reflexivity|]. eexists. split; vm_compute; reflexivity. Qed.
