(** Property C48: absorbing layers. *)
From Coq Require Import List ZArith Lia Bool Arith.
From Verif Require Import Base Arrays Model.Grid Spec.Grid Proofs.Grid Model.PML Spec.PML Proofs.PML.
Import ListNotations.
Open Scope Z_scope.

Ltac box := cbn; unfold in_box; repeat (apply Forall2_cons; [lia|]); apply Forall2_nil.

(** ** C48 *)
(** [C48_stmt P]: for layers accepted by InitParams that satisfy P, ApplyTransform multiplies exactly the points whose
    depth is below the thickness, each by the factor of its depth and once. *)
Definition C48_full : Prop := C48_stmt (fun _ _ => True).

(** Holds if a side is requested, the layer fits and layers on both sides do not overlap. *)
Theorem C48_layer_partial : C48_stmt (fun T m => m_side m <> 0 /\
  m_thick m <= size_of (g_sizes (m_grid m)) (m_dim m) /\
  (m_side m = 3 -> 2 * m_thick m <= size_of (g_sizes (m_grid m)) (m_dim m))).
Proof. exact layer_once. Qed.
Print Assumptions C48_layer_partial.

(** What the code computes for any side and any layer that fits: side 0 acts like side 3 and overlapping layers apply
    both factors.  The same holds for ApplyTransformDiff with the factors _df1. *)
Theorem C48_code : forall T (mul : T -> T -> T) cj, (forall x a b, mul (mul x a) b = mul (mul x b) a) ->
  forall g0 G acts (m : pml) fs v, m_grid m = opened g0 G acts -> Forall (fun d => 0 < d) (g_sizes G) ->
  (m_dim m < length (g_sizes G))%nat -> zlen v = points (g_sizes G) -> 0 <= m_thick m <= zlen fs ->
  m_thick m <= size_of (g_sizes G) (m_dim m) ->
  forall op, In (op, fs) [(fun v => apply_transform mul cj m v false, m_f1 m); (fun v => apply_transform mul cj m v true, map cj (m_f1 m)); (apply_transform_diff mul m, m_df1 m)] ->
  exists v', op v = Ok v' /\ zlen v' = zlen v /\
    forall cs x, in_box (g_sizes G) cs -> rd v (flat (g_sizes G) cs) = Ok x ->
      rd v' (flat (g_sizes G) cs) =
      Ok (scaled mul fs (depths (negb (m_side m =? 2)) (negb (m_side m =? 1)) (m_thick m) (size_of (g_sizes G) (m_dim m)) (nth (m_dim m) cs 0)) x).
Proof.
  intros T mul cj sw g0 G acts m fs v H1 H2 H3 H4 H5 H6 op H7. assert (E : op v = all_stripes mul m fs v).
  { destruct H7 as [H|[H|[H|[]]]]; injection H as <- <-; reflexivity. }
  rewrite E. exact (stripes_exact mul sw g0 G acts m fs v H1 H2 H3 H4 H5 H6).
Qed.
Print Assumptions C48_code.

(** A layer thicker than the grid always reads or writes outside the vector; only an explicit thickness is checked. *)
Theorem C48_too_thick : forall T (mul : T -> T -> T) g0 G acts (m : pml) fs v v',
  m_grid m = opened g0 G acts -> Forall (fun d => 0 < d) (g_sizes G) ->
  (m_dim m < length (g_sizes G))%nat -> zlen v = points (g_sizes G) ->
  size_of (g_sizes G) (m_dim m) < m_thick m -> all_stripes mul m fs v <> Ok v'.
Proof. exact @stripes_bad. Qed.
Print Assumptions C48_too_thick.

Theorem C48_accepted : forall T g lmap thick factors dim (m : @pml T), init_params g lmap thick factors dim = Ok m ->
  m_dim m = dim /\ m_grid m = g /\ 0 <= m_thick m /\ m_f1 m = fst (factors (m_thick m)) /\ m_df1 m = snd (factors (m_thick m)) /\
  0 <= m_side m <= 3 /\ (lmap = None -> m_side m = 3) /\
  (thick = None -> m_thick m = 10) /\ (thick <> None -> m_thick m <= size_of (g_sizes g) dim).
Proof. exact @init_inv. Qed.
Print Assumptions C48_accepted.

(** A parameter list with exactly dim entries passes the check although the entry of dimension dim is missing. *)
Theorem C48_missing_entry : forall val dim, zlen val = Z.of_nat dim -> dim <> 1%nat -> pick val dim = UB.
Proof. exact pick_behind. Qed.
Print Assumptions C48_missing_entry.

(** Witnesses over the integers with the factors 2, 3, 4, ... *)
Definition facs (t : Z) : list Z * list Z := (map (fun i => i + 2) (upto 0 t), map (fun i => i + 2) (upto 0 t)).
Definition run48 (ds : list Z) lmap thick dim v : outcome (list Z) :=
  let* m := init_params (opened new_grid (set_sizes new_grid ds) []) lmap thick facs dim in
  apply_transform Z.mul (fun x => x) m v false.

Example C48_example : run48 [2; 5] (Some [3]) (Some [2]) 1 [1;1;1;1;1;1;1;1;1;1] = Ok [2;2;3;3;1;1;3;3;2;2].
Proof. reflexivity. Qed.
Example C48_begin : run48 [5] (Some [1]) (Some [2]) 0 [1;1;1;1;1] = Ok [2;3;1;1;1].
Proof. reflexivity. Qed.
(** conjugated factors and the factors of the derivative *)
Example C48_factors : let m := mkPml 0%nat 1 2 [2; 3] [5; 7] (opened new_grid (set_sizes new_grid [4]) []) in
  apply_transform Z.mul Z.opp m [1;1;1;1] true = Ok [-2;-3;1;1] /\ apply_transform_diff Z.mul m [1;1;1;1] = Ok [5;7;1;1].
Proof. split; reflexivity. Qed.
(** default thickness on a small grid *)
Example C48_default_thick : run48 [5] None None 0 [1;1;1;1;1] = UB.
Proof. reflexivity. Qed.
(** map 0 means "none" in the handbook *)
Example C48_none : run48 [5] (Some [0]) (Some [1]) 0 [1;1;1;1;1] = Ok [2;1;1;1;2].
Proof. reflexivity. Qed.
(** overlapping layers *)
Example C48_overlap : run48 [3] (Some [3]) (Some [2]) 0 [1;1;1] = Ok [2;9;2].
Proof. reflexivity. Qed.
Example C48_lmap : run48 [3;3;3] (Some [1;1]) (Some [1]) 2 (map (fun _ => 1) (upto 0 27)) = UB.
Proof. reflexivity. Qed.

Theorem C48_full_refuted : ~ C48_full.
Proof.
  intros H. destruct (H Z Z.mul (fun x => x) ltac:(intros; ring) new_grid (set_sizes new_grid [5]) [] None None facs 0%nat
    (mkPml 0%nat 3 10 (fst (facs 10)) (snd (facs 10)) (opened new_grid (set_sizes new_grid [5]) [])) [1;1;1;1;1] false) as (v' & E & _).
  - repeat constructor.
  - cbn. lia.
  - reflexivity.
  - intros t Ht. cbn. rewrite !zlen_map. unfold zlen. rewrite upto_length. lia.
  - reflexivity.
  - exact I.
  - vm_compute in E. discriminate E.
Qed.
Print Assumptions C48_full_refuted.
