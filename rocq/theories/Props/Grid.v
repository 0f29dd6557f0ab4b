(** Properties C15-C17: grid addressing. *)
From Coq Require Import List ZArith Lia Bool Arith Permutation.
From Verif Require Import Base Arrays Algebra Model.Grid Spec.Grid Proofs.Grid.
Import ListNotations.
Open Scope Z_scope.

Ltac box := cbn; unfold in_box; repeat (apply Forall2_cons; [lia|]); apply Forall2_nil.

(** ** C15 *)
(** [ready g0 G acts dim]: any grid object after assignment from G and activation of dimensions, dim last. *)
Theorem C15_address : forall (g0 G : grid) acts dim cs i,
  (dim < length (g_sizes G))%nat -> in_box (remove_at dim (g_sizes G)) cs -> 0 <= i < size_of (g_sizes G) dim ->
  let g := ready g0 G acts dim in let r := flat (remove_at dim (g_sizes G)) cs in
  Index g i r = Ok (flat (g_sizes G) (insert_at dim i cs)) /\
  IndexBase g r = Ok (flat (g_sizes G) (insert_at dim 0 cs)) /\
  exists lo, LowOthers g = Ok lo /\ flat (g_sizes G) (insert_at dim i cs) = flat (g_sizes G) (insert_at dim 0 cs) + i * lo.
Proof. exact index_flat. Qed.
Print Assumptions C15_address.

Theorem C15_bijection : forall (g0 G : grid) acts dim,
  Forall (fun d => 0 < d) (g_sizes G) -> (dim < length (g_sizes G))%nat ->
  let g := ready g0 G acts dim in
  exists no, NumOthers g = Ok no /\ no * size_of (g_sizes G) dim = grid_size (g_sizes G) /\
  (forall i r, 0 <= i < size_of (g_sizes G) dim -> 0 <= r < no ->
     exists k, Index g i r = Ok k /\ 0 <= k < grid_size (g_sizes G)) /\
  (forall k, 0 <= k < grid_size (g_sizes G) ->
     exists i r, 0 <= i < size_of (g_sizes G) dim /\ 0 <= r < no /\ Index g i r = Ok k /\
     forall i' r', 0 <= i' < size_of (g_sizes G) dim -> 0 <= r' < no -> Index g i' r' = Ok k -> i' = i /\ r' = r).
Proof. exact index_bijection. Qed.
Print Assumptions C15_bijection.

(** multi-indices and positions correspond one to one *)
Theorem C15_flat_bijection : forall ds, Forall (fun d => 0 < d) ds ->
  (forall cs, in_box ds cs -> 0 <= flat ds cs < points ds) /\
  (forall cs cs', in_box ds cs -> in_box ds cs' -> flat ds cs = flat ds cs' -> cs = cs') /\
  (forall k, 0 <= k < points ds -> exists cs, in_box ds cs /\ flat ds cs = k).
Proof. exact (fun ds P => conj (flat_bound ds) (conj (flat_inj ds) (fun k => flat_surj ds k P))). Qed.
Print Assumptions C15_flat_bijection.

(** The number of points; a grid without dimensions has none. *)
Theorem C15_size : forall ds, grid_size ds = match ds with [] => 0 | _ => points ds end.
Proof. intros [|d ds]; [reflexivity|apply grid_size_spec; discriminate]. Qed.
Print Assumptions C15_size.
(** The stride over two dimensions (LowOthers with two arguments) is 1 on every grid, whatever the dimensions. *)
Theorem C15_stride2_code : forall ds d1 d2, ds <> [] -> Forall (fun d => 0 < d) ds -> low_others2 ds d1 d2 = 1.
Proof. exact low_others2_one. Qed.
Print Assumptions C15_stride2_code.
Example C15_stride2_ex : low_others2 [4; 3; 2] 0 1 = 1 /\ num_others2 [4; 3; 2] 0 1 = 2 /\ low_others2 [4; 3; 2] 1 2 = 1 /\ grid_size [4; 3; 2] = 24.
Proof. vm_compute. auto. Qed.

Example C15_example :
  let G := set_sizes new_grid [3; 4; 2] in
  Forall (fun d => 0 < d) (g_sizes G) /\ in_box (remove_at 1 (g_sizes G)) [2; 1] /\
  flat (remove_at 1 (g_sizes G)) [2; 1] = 5 /\ Index (ready new_grid G [0%nat] 1) 3 5 = Ok 23 /\
  flat [3; 4; 2] [2; 3; 1] = 23 /\ NumOthers (ready new_grid G [0%nat] 1) = Ok 6.
Proof. cbv zeta. split; [repeat constructor|]. split; [box|]. vm_compute. auto. Qed.

(** ** C16 *)
Definition C16_full : Prop := forall T ds (data : list T) h,
  Forall (fun d => 0 < d) ds -> zlen data = points ds -> legal ds None h ->
  exists v', vrun (new_view data ds) h = Ok v' /\ vspec ds None data h (v_data v').

(** Holds for histories in which the number of stripes does not change when a dimension is activated again. *)
Theorem C16_axis_partial : forall T ds (data : list T) h,
  Forall (fun d => 0 < d) ds -> zlen data = points ds -> legal ds None h -> steady ds [] None h ->
  exists v', vrun (new_view data ds) h = Ok v' /\ vspec ds None data h (v_data v').
Proof. exact @view_spec. Qed.
Print Assumptions C16_axis_partial.

(** ... in particular when each dimension is activated at most once, and on grids with equal stripe counts. *)
Theorem C16_once : forall T ds (h : list (vop T)), NoDup (acts h) -> steady ds [] None h.
Proof. exact (fun T ds h => steady_once ds h [] None (fun d (H : In d []) => match H with end)). Qed.
Print Assumptions C16_once.
Theorem C16_cube : forall T ds n (h : list (vop T)), (forall d, (d < length ds)%nat -> points (remove_at d ds) = n) ->
  legal ds None h -> steady ds [] None h.
Proof. exact (fun T ds n h C => steady_cube ds n C h [] None (fun p (H : None = Some p) => match H with end)). Qed.
Print Assumptions C16_cube.

(** Finding: switching back to a dimension used before keeps the stripe count of the dimension left. *)
Theorem C16_switch_back_refuted : ~ C16_full.
Proof.
  intros H. specialize (H Z [2; 3] [0; 0; 0; 0; 0; 0] [VAct 0; VAct 1; VAct 0; VOp Z.add [1; 1]]).
  destruct H as (v' & E & S).
  - repeat constructor.
  - reflexivity.
  - cbn. repeat split; lia.
  - vm_compute in E. injection E as <-. cbn in S.
    inversion S as [|? ? ? ? ? S1|]; subst. inversion S1 as [|? ? ? ? ? S2|]; subst.
    inversion S2 as [|? ? ? ? ? S3|]; subst. inversion S3 as [| |? ? ? ? ? ? ? A S4]; subst. inversion S4; subst.
    destruct A as [_ A]. specialize (A [1; 2] 0 1). assert (C : rd [1; 1; 1; 1; 0; 0] 5 = Ok 1).
    { apply A; [box|reflexivity|reflexivity]. }
    vm_compute in C. discriminate.
Qed.
Print Assumptions C16_switch_back_refuted.

Example C16_example :
  let h := [VAct 1; VOp Z.add [10; 20; 30]; VAct 0; VOp Z.mul [1; 2]] in
  NoDup (acts h) /\ legal [2; 3] None h /\
  exists v', vrun (new_view [0; 1; 2; 3; 4; 5] [2; 3]) h = Ok v' /\ v_data v' = [10; 22; 22; 46; 34; 70].
Proof.
  split; [repeat constructor; cbn; intuition discriminate|]. split; [cbn; repeat split; lia|].
  eexists. vm_compute. split; reflexivity.
Qed.

(** ** C17 *)
Theorem C17_stripes : forall ds dim, (dim < length ds)%nat ->
  exists lcs, NoDup lcs /\ (forall cs, In cs lcs <-> in_box (remove_at dim ds) cs) /\
    plan_stripes (plan_data ds dim) (plan_loops ds dim) =
    map (fun cs => map (fun i => flat ds (insert_at dim i cs)) (upto 0 (size_of ds dim))) lcs.
Proof. exact fft_plan_spec. Qed.
Print Assumptions C17_stripes.

Theorem C17_cover : forall ds dim, Forall (fun d => 0 < d) ds -> (dim < length ds)%nat ->
  Permutation (concat (plan_stripes (plan_data ds dim) (plan_loops ds dim))) (upto 0 (points ds)).
Proof. exact fft_cover. Qed.
Print Assumptions C17_cover.

Example C17_example : plan_stripes (plan_data [2; 3; 2] 1) (plan_loops [2; 3; 2] 1) =
  [[0; 2; 4]; [1; 3; 5]; [6; 8; 10]; [7; 9; 11]].
Proof. vm_compute. reflexivity. Qed.
