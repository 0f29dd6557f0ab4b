(** C81: the two representations of a wave function. *)
From Coq Require Import List ZArith Lia Bool Arith.
From Verif Require Import Base Arrays Model.Grid Model.Repr Spec.Repr Proofs.Repr.
Import ListNotations.
Open Scope Z_scope.

(** Full statement: whatever a program does with its wave functions (create, write, transform in all or one dimension, switch,
    assign, compress, restore, retire, get back), it is defined, and each wave function that is not retired shows the grid, the
    representation and the elements that two vectors without storage, pointers and plans would show. *)
Definition C81_full : Prop := forall A (trans : bool -> list Z -> option nat -> list A -> list A) junk flag wis cs s',
  (forall fw ds od x, zlen x = grid_size ds -> zlen (trans fw ds od x) = zlen x) -> (forall t n, 0 <= n -> zlen (junk t n) = n) ->
  Forall (keeps A) cs -> s_run A trans (nothing A) cs = Some s' ->
  exists w', run A trans junk flag (start A wis) cs = Ok w' /\ seen A w' s'.

(** a transform that tells direction, shape and dimension; storage that tells when it was overwritten *)
Definition tr (fw : bool) (ds : list Z) (od : option nat) (x : list Z) : list Z :=
  map (fun v => v * 10 + (if fw then 1 else 2) + 3 * hd 0 ds + match od with None => 0 | Some d => 100 * (1 + Z.of_nat d) end) x.
Definition jk (t : nat) (n : Z) : list Z := repeat (- (1000 + Z.of_nat t)) (Z.to_nat n).
Lemma tr_len : forall fw ds od x, zlen x = grid_size ds -> zlen (tr fw ds od x) = zlen x.
Proof. intros. unfold tr, zlen. rewrite map_length. reflexivity. Qed.
Lemma jk_len : forall t n, 0 <= n -> zlen (jk t n) = n.
Proof. intros. unfold jk, zlen. rewrite repeat_length. lia. Qed.
Definition result (cs : list (cmd Z)) : state Z := match s_run Z tr (nothing Z) cs with Some s => s | None => nothing Z end.
Definition no_wis : prob -> option lvl := fun _ => None.

(** Reading a compressed wave function with the planner mode of the program (no wisdom file): planning overwrites what was read. *)
Definition prog_restore : list (cmd Z) := [CNew Z 0 [2]; CWrite Z 0 [5; 6]; CNew Z 1 [2]; CRestore Z 1 0].
Theorem C81_restore_refuted : ~ C81_full.
Proof.
  intros H. destruct (H Z tr jk (optimize_flag true false) no_wis prog_restore (result prog_restore) tr_len jk_len) as (w' & E & S); [|reflexivity|].
  { repeat constructor. }
  vm_compute in E. injection E as <-. destruct (S 1%nat _ eq_refl) as (o & l & _ & _ & _ & E & _ & X). vm_compute in E. injection E as <-.
  specialize (X _ eq_refl). vm_compute in X. discriminate.
Qed.
Print Assumptions C81_restore_refuted.

(** Derivatives with respect to two coordinates one after the other, as OGridGMat forms them: the wave function that was first
    transformed backward loses its position space when the plans of the next dimension are made. *)
Definition prog_derivs : list (cmd Z) :=
  [CNew Z 0 [2; 3]; CWrite Z 0 [1; 2; 3; 4; 5; 6]; CNew Z 1 [2; 3]; CTrans Z true 0 (Some 0%nat); CSwitch Z 1 true; CMap Z 1 0 (map (Z.mul 7));
   CSwitch Z 0 false; CTrans Z false 1 (Some 0%nat); CTrans Z true 1 (Some 1%nat)].
Theorem C81_dim_refuted : ~ C81_full.
Proof.
  intros H. destruct (H Z tr jk (optimize_flag true false) no_wis prog_derivs (result prog_derivs) tr_len jk_len) as (w' & E & S); [|reflexivity|].
  { repeat constructor. intros y. unfold zlen. rewrite map_length. reflexivity. }
  vm_compute in E. injection E as <-. destruct (S 1%nat _ eq_refl) as (o & l & _ & _ & _ & E & _ & X). vm_compute in E. injection E as <-.
  specialize (X _ eq_refl). vm_compute in X. discriminate.
Qed.
Print Assumptions C81_dim_refuted.

(** A wave function that was transformed is assigned one of another size twice, then transformed: the plan still points to the
    storage that was freed.  (No planning cost is involved: mode ESTIMATE.) *)
Definition prog_resize : list (cmd Z) :=
  [CNew Z 0 [2]; CWrite Z 0 [5; 6]; CTrans Z true 0 None; CNew Z 1 [3]; CWrite Z 1 [7; 8; 9]; CAssign Z 0 1; CAssign Z 0 1; CTrans Z true 0 None].
Theorem C81_resize_refuted : ~ C81_full.
Proof.
  intros H. destruct (H Z tr jk (optimize_flag false false) no_wis prog_resize (result prog_resize) tr_len jk_len) as (w' & E & S); [|reflexivity|].
  { repeat constructor. }
  vm_compute in E. discriminate.
Qed.
Print Assumptions C81_resize_refuted.
(** The same number of points in another shape: the plans of the old shape are executed. *)
Definition prog_shape : list (cmd Z) :=
  [CNew Z 0 [2; 3]; CWrite Z 0 [1; 2; 3; 4; 5; 6]; CTrans Z true 0 None; CNew Z 1 [3; 2]; CWrite Z 1 [1; 2; 3; 4; 5; 6]; CAssign Z 0 1; CTrans Z true 0 None].
Theorem C81_shape_refuted : ~ C81_full.
Proof.
  intros H. destruct (H Z tr jk (optimize_flag false false) no_wis prog_shape (result prog_shape) tr_len jk_len) as (w' & E & S); [|reflexivity|].
  { repeat constructor. }
  vm_compute in E. injection E as <-. destruct (S 0%nat _ eq_refl) as (o & l & _ & _ & _ & E & _ & X). vm_compute in E. injection E as <-.
  specialize (X _ eq_refl). vm_compute in X. discriminate.
Qed.
Print Assumptions C81_shape_refuted.

(** The statement holds for careful programs.  [prep] says for which shapes and dimensions wisdom of the planner mode is there
    (all, if the mode is ESTIMATE); without it a new shape is first transformed forward, and a new dimension first in the direction
    that overwrites what planning does; a wave function that was transformed keeps its shape. *)
Theorem C81_partial : forall A (trans : bool -> list Z -> option nat -> list A -> list A) junk flag wis cs s' prep,
  (forall fw ds od x, zlen x = grid_size ds -> zlen (trans fw ds od x) = zlen x) -> (forall t n, 0 <= n -> zlen (junk t n) = n) ->
  (forall ds od, prep ds od = true -> flag = Est \/ forall fw, exists l, wis (ds, od, fw) = Some l /\ lvl_leb flag l = true) ->
  Forall (keeps A) cs -> careful_run A trans prep (nothing A) cs -> s_run A trans (nothing A) cs = Some s' ->
  exists w', run A trans junk flag (start A wis) cs = Ok w' /\ seen A w' s'.
Proof. intros A trans junk flag wis cs s' prep Ht Hj. exact (repr_careful A trans junk flag Ht Hj wis prep cs s'). Qed.
Print Assumptions C81_partial.
(** What the code does if only the shapes are kept: nothing undefined, and all elements are as they should be except those that
    depend on what planning overwrites ([m_run]). *)
Theorem C81_code : forall A (trans : bool -> list Z -> option nat -> list A -> list A) junk flag wis cs s' pl pl' wis',
  (forall fw ds od x, zlen x = grid_size ds -> zlen (trans fw ds od x) = zlen x) -> (forall t n, 0 <= n -> zlen (junk t n) = n) ->
  Forall (keeps A) cs -> shapes_kept A trans flag (nothing A, pl, wis) cs -> m_run A trans flag (nothing A, pl, wis) cs = Some (s', pl', wis') ->
  exists w', run A trans junk flag (start A wis) cs = Ok w' /\ seen A w' s'.
Proof. intros A trans junk flag wis cs s' pl pl' wis' Ht Hj. exact (repr_code A trans junk flag Ht Hj wis cs s' pl' wis' pl). Qed.
Print Assumptions C81_code.

(** ** Examples *)
(** a propagation step: kinetic energy in momentum space of a copy, potential, sum; then one dimension, compression, retirement *)
Definition prog_step : list (cmd Z) :=
  [CNew Z 0 [2; 3]; CWrite Z 0 [1; 2; 3; 4; 5; 6]; CNew Z 1 [2; 3]; CAssign Z 1 0; CTrans Z true 1 None; CMap Z 1 1 (map (Z.mul 2)); CTrans Z false 1 None;
   COp Z 1 0 (fun x y => map (fun p => fst p + snd p) (combine x y)); CTrans Z true 0 (Some 1%nat); CTrans Z false 0 (Some 1%nat); CReduce Z 2 1 (map (Z.max 50));
   CRetire Z 0; CReaquire Z 0; CAssign Z 0 1; CRestore Z 1 2; CTrans Z true 1 (Some 1%nat)].
Lemma prog_step_keeps : Forall (keeps Z) prog_step.
Proof.
  repeat constructor; cbn.
  - intros y. unfold zlen. rewrite map_length. reflexivity.
  - intros x y H. unfold zlen in *. rewrite map_length, combine_length. lia.
  - intros y. unfold zlen. rewrite map_length. reflexivity.
Qed.
Example ex_step_careful : careful_run Z tr (fun _ _ => false) (nothing Z) prog_step.
Proof. repeat split; vm_compute; reflexivity. Qed.
Example ex_step : exists s r, s_run Z tr (nothing Z) prog_step = Some s /\ live Z s 1 = Some r /\ r_k Z r = true /\ exists x, active Z r = Some x /\
  exists w', run Z tr jk (optimize_flag true false) (start Z no_wis) prog_step = Ok w' /\ read_vec Z w' 1 = Ok x.
Proof. eexists _, _. split; [reflexivity|]. split; [reflexivity|]. split; [reflexivity|]. eexists. split; [reflexivity|]. eexists. split; [vm_compute; reflexivity|]. vm_compute. reflexivity. Qed.
(** the first refuting program is fine once there is a wisdom file *)
Definition wis_full : prob -> option lvl := fun p => match p with (_, None, _) => Some Mea | _ => None end.
Example ex_restore_wisdom : careful_run Z tr (fun _ od => match od with None => true | Some _ => false end) (nothing Z) prog_restore /\
  (forall ds od, match od with None => true | Some _ => false end = true -> optimize_flag true true = Est \/ forall fw, exists l, wis_full (ds, od, fw) = Some l /\ lvl_leb (optimize_flag true true) l = true) /\
  exists w', run Z tr jk (optimize_flag true true) (start Z wis_full) prog_restore = Ok w' /\ read_vec Z w' 1 = Ok (tr false [2] None [5; 6]).
Proof.
  split; [repeat split; vm_compute; reflexivity|]. split.
  - intros ds [d|] H; [discriminate|]. right. intros fw. exists Mea. split; reflexivity.
  - eexists. split; vm_compute; reflexivity.
Qed.
(** and what the last theorem says of it without: no undefined behaviour, the elements are not determined *)
Example ex_restore_code : shapes_kept Z tr Pat (nothing Z, fun _ => [], no_wis) prog_restore /\
  exists s pl wis r, m_run Z tr Pat (nothing Z, fun _ => [], no_wis) prog_restore = Some (s, pl, wis) /\ live Z s 1 = Some r /\ active Z r = None /\
    exists q, live Z s 0 = Some q /\ active Z q = Some [5; 6].
Proof. split; [repeat split|]. eexists _, _, _, _. split; [reflexivity|]. split; [reflexivity|]. split; [reflexivity|]. eexists. split; reflexivity. Qed.
