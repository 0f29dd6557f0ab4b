(** C99: the position operator multiplies by the coordinate. *)
From Coq Require Import QArith Qcanon List ZArith Lia Bool Arith.
From Verif Require Import Base Arrays Algebra Complex Ordered Model.Grid Spec.Grid Proofs.Grid Model.Position Spec.Position Proofs.Position.
Import ListNotations.
Open Scope Z_scope.

Definition qc (z : Z) : Qco := Q2Qc (inject_Z z).
Definition gd (n a b : Z) : dim_ Qco := @mkDim Qco n (qc a) (qc b).
(** two dimensions: 2 points from 0 to 1, 3 points from 1 to 5 *)
Definition plane : list (dim_ Qco) := [gd 2 0 1; gd 3 1 5].
Definition pars (d : option Z) (s : option Z) : ppars Qco := @mkPP Qco d (option_map qc s).
Definition run {A} (d : A) (x : outcome (A * bool)) : A := match x with Ok (y, _) => y | _ => d end.
Definition view_q (l : list (option Qco)) : list (option Q) := map (option_map (fun x : Qco => Qcanon.this x)) l.
Lemma plane_wide a : In a plane -> wide Qco a. Proof. intros [<-|[<-|[]]]; unfold wide; cbn; lia. Qed.

(** the table *)
Definition C99_table : Prop := forall F (p : ppars F) (g : list (dim_ F)), g <> [] -> (length g <= 4)%nat -> (forall a, In a g -> 1 <= d_n a) -> asked F p (length g) ->
  exists o, start F p g = Ok (o, true) /\ table_of (sizes g) (s_tab o) (fun cs => cmul (scale_of F p) (position (map (triple F) g) (pp_dim p) cs)).
Theorem C99_table_partial : forall F (p : ppars F) (g : list (dim_ F)), g <> [] -> (length g <= 4)%nat -> (forall a, In a g -> 2 <= d_n a) -> asked F p (length g) ->
  exists o, start F p g = Ok (o, true) /\ table_of (sizes g) (s_tab o) (fun cs => cmul (scale_of F p) (position (map (triple F) g) (pp_dim p) cs)).
Proof. intros F p g N L W A. destruct (start_ok F p g N L W A) as (o & E & _ & _ & _ & T). exists o. split; assumption. Qed.
Print Assumptions C99_table_partial.
(** one point: not a number *)
Theorem C99_table_refuted : ~ C99_table.
Proof.
  intros H. destruct (H Qco (pars (Some 0) None) [gd 1 3 3]) as (o & E & _ & T); [discriminate|cbn; lia|intros a [<-|[]]; cbn; lia|cbn; lia|].
  specialize (T [0]). assert (B : in_box (sizes [gd 1 3 3]) [0]) by (repeat constructor; lia). specialize (T B). assert (X : s_tab o = [None]) by (apply (f_equal (fun x => match x with Ok (y, _) => s_tab y | _ => [] end)) in E; symmetry; exact E).
  rewrite X in T. discriminate T.
Qed.
Print Assumptions C99_table_refuted.
Example C99_table_ex : view_q (s_tab (run posn_new (start Qco (pars (Some 1) (Some 2)) plane))) = map Some [2; 2; 6; 6; 10; 10]%Q /\
  view_q (s_tab (run posn_new (start Qco (pars None None) plane))) = map Some [1; 2; 3; 4; 5; 6]%Q /\ asked Qco (pars (Some 1) (Some 2)) 2.
Proof. split; [reflexivity|]. split; [reflexivity|cbn; lia]. Qed.

(** what is refused *)
Theorem C99_refused : forall F (p : ppars F) (g : list (dim_ F)) d, g <> [] -> pp_dim p = Some d -> d <> 2147483647 ->
  (d < 0 -> start F p g = Throw) /\ (Z.of_nat (length g) <= d -> exists o, start F p g = Ok (o, false)).
Proof.
  intros F p g d N E X. split; [intros H; exact (negative F p d g E H)|]. intros H. eexists. apply (too_large F p d g N E H); [lia|exact X].
Qed.
Print Assumptions C99_refused.
Theorem C99_kind : forall F (o : posn F), posn_psi o None = Ok (o, false).
Proof. exact other_kind. Qed.
Print Assumptions C99_kind.
(** and stays refused *)
Definition C99_stays : Prop := forall F (p : ppars F) (g : list (dim_ F)) o, g <> [] -> (forall a, In a g -> 2 <= d_n a) -> start F p g = Ok (o, false) -> exists o', posn_psi o (Some g) = Ok (o', false).
Theorem C99_stays_refuted : ~ C99_stays.
Proof.
  intros H. destruct (H Qco (pars (Some 5) None) plane _ ltac:(discriminate) plane_wide eq_refl) as (o' & E). discriminate E.
Qed.
Print Assumptions C99_stays_refuted.
(** the second Init succeeds with a table of zeros *)
Theorem C99_stays_code : forall F (p : ppars F) (g : list (dim_ F)) d, g <> [] -> (forall a, In a g -> 2 <= d_n a) -> pp_dim p = Some d -> Z.of_nat (length g) <= d -> d <> 2147483647 ->
  exists o, start F p g = Ok (o, false) /\ posn_psi o (Some g) = Ok (o, true) /\ table_of (sizes g) (s_tab o) (fun _ => c0).
Proof.
  intros F p g d N W E H X. pose proof (wide_pos F g W) as P. eexists. split; [apply (too_large F p d g N E H); [lia|exact X]|]. split; [apply again; cbn [s_tab]; rewrite zeros_len; apply points_pos; exact P|].
  exact (ptab_const F (sizes g) (Some c0) P).
Qed.
Print Assumptions C99_stays_code.
(** the largest int overflows *)
Theorem C99_overflow_code : forall F (p : ppars F) g, pp_dim p = Some 2147483647 -> start F p g = UB.
Proof. exact overflow. Qed.
Print Assumptions C99_overflow_code.
Example C99_refused_ex : start Qco (pars (Some (-1)) None) plane = Throw /\ (exists o, start Qco (pars (Some 2) None) plane = Ok (o, false)) /\ pp_dim (pars (Some 2147483647) None) = Some 2147483647.
Proof. split; [reflexivity|]. split; [eexists; reflexivity|reflexivity]. Qed.

(** application: multiplication by the coordinate, a hermitian operator *)
Theorem C99_apply_partial : forall F (p : ppars F) (g : list (dim_ F)) (psi : list (Cx F)), g <> [] -> (length g <= 4)%nat -> (forall a, In a g -> 2 <= d_n a) -> asked F p (length g) -> zlen psi = points (sizes g) ->
  exists o r, start F p g = Ok (o, true) /\ posn_apply o psi = Ok r /\ zlen r = zlen psi /\
    forall cs x, in_box (sizes g) cs -> rd psi (flat (sizes g) cs) = Ok x -> rd r (flat (sizes g) cs) = Ok (Some (cx_scale (cmul (scale_of F p) (position (map (triple F) g) (pp_dim p) cs)) x)).
Proof.
  intros F p g psi N L W A Z0. destruct (start_ok F p g N L W A) as (o & E & _ & _ & _ & T). destruct (apply_ok F o _ _ psi T Z0) as (r & R1 & R2 & R3). exists o, r. repeat split; assumption.
Qed.
Print Assumptions C99_apply_partial.
Theorem C99_hermitian_partial : forall F (p : ppars F) (g : list (dim_ F)) (a b : list (Cx F)), g <> [] -> (length g <= 4)%nat -> (forall a, In a g -> 2 <= d_n a) -> asked F p (length g) -> zlen a = points (sizes g) -> zlen b = points (sizes g) ->
  exists o ra rb, start F p g = Ok (o, true) /\ posn_apply o a = Ok (map Some ra) /\ posn_apply o b = Ok (map Some rb) /\ dot a rb = dot ra b.
Proof.
  intros F p g a b N L W A Za Zb. destruct (start_ok F p g N L W A) as (o & E & _ & _ & _ & T). pose proof (wide_pos F g W) as P.
  destruct (all_some F o _ _ a P T Za) as [ra Ra]. destruct (all_some F o _ _ b P T Zb) as [rb Rb]. exists o, ra, rb. repeat split; try assumption. exact (herm F o a b ra rb Ra Rb).
Qed.
Print Assumptions C99_hermitian_partial.
(** a second Init changes nothing (other wave functions are not allowed, Operator.h:53) *)
Theorem C99_again_code : forall F (o : posn F) g, 0 < zlen (s_tab o) -> posn_psi o (Some g) = Ok (o, true) /\ forall psi : list (Cx F), zlen psi <> zlen (s_tab o) -> posn_apply o psi = UB.
Proof. intros F o g H. split; [exact (again F o g H)|exact (apply_ub F o)]. Qed.
Print Assumptions C99_again_code.
Example C99_apply_ex : exists r, posn_apply (run posn_new (start Qco (pars (Some 0) (Some 3)) plane)) [c1; c1; c1; c1; c1; c1] = Ok r /\
  map (option_map (fun x : Cx Qco => Qcanon.this (fst x))) r = map Some [0; 3; 0; 3; 0; 3]%Q.
Proof. eexists. split; reflexivity. Qed.

(** Emin and Emax *)
Definition C99_bounds : Prop := forall F (p : ppars F) (g : list (dim_ F)), g <> [] -> (length g <= 4)%nat -> (forall a, In a g -> 2 <= d_n a /\ olt (d_lo a) (d_hi a)) -> asked F p (length g) ->
  exists o lo hi, start F p g = Ok (o, true) /\ posn_emin o = Ok lo /\ posn_emax o = Ok hi /\
    forall cs, in_box (sizes g) cs -> exists x, rd (s_tab o) (flat (sizes g) cs) = Ok (Some x) /\ within lo x hi.
Theorem C99_bounds_partial : forall F (p : ppars F) (g : list (dim_ F)) d a, g <> [] -> (length g <= 4)%nat -> (forall a, In a g -> 2 <= d_n a) -> pp_dim p = Some d -> scale_of F p = c1 -> 0 <= d ->
  nth_error g (Z.to_nat d) = Some a -> olt (d_lo a) (d_hi a) ->
  exists o, start F p g = Ok (o, true) /\ posn_emin o = Ok (d_lo a) /\ posn_emax o = Ok (d_hi a) /\
    forall cs, in_box (sizes g) cs -> exists x, rd (s_tab o) (flat (sizes g) cs) = Ok (Some x) /\ within (d_lo a) x (d_hi a).
Proof. exact bounds_ok. Qed.
Print Assumptions C99_bounds_partial.
(** a scale is not part of them *)
Theorem C99_bounds_refuted : ~ C99_bounds.
Proof.
  intros H. destruct (H Qco (pars (Some 0) (Some 3)) plane) as (o & lo & hi & E & E1 & E2 & B); [discriminate|cbn; lia| |cbn; lia|].
  { intros a Ha. split; [apply plane_wide; exact Ha|]. destruct Ha as [<-|[<-|[]]]; reflexivity. }
  assert (Eo : o = run posn_new (start Qco (pars (Some 0) (Some 3)) plane)) by (rewrite E; reflexivity). clear E. subst o.
  destruct (B [1; 0]) as (x & Ex & _ & Hx); [repeat constructor; lia|].
  assert (Vx : Qcanon.this x = 3%Q) by (apply (f_equal (fun z => match z with Ok (Some y) => Qcanon.this y | _ => 0%Q end)) in Ex; symmetry; exact Ex).
  assert (Vh : Qcanon.this hi = 1%Q) by (apply (f_equal (fun z => match z with Ok y => Qcanon.this y | _ => 0%Q end)) in E2; symmetry; exact E2).
  destruct Hx as [Hx|Hx]; [|rewrite Hx in Vx; rewrite Vh in Vx; discriminate Vx]. assert (L : Qlt (Qcanon.this x) (Qcanon.this hi)) by exact Hx. rewrite Vx, Vh in L. discriminate L.
Qed.
Print Assumptions C99_bounds_refuted.
(** without a dimension, and in copies, Emax reads in front of the dimensions *)
Theorem C99_bounds_code : forall F (p : ppars F) (g : list (dim_ F)), g <> [] -> (length g <= 4)%nat -> (forall a, In a g -> 2 <= d_n a) -> pp_dim p = None ->
  exists o, start F p g = Ok (o, true) /\ posn_emin o = UB /\ posn_emax o = UB.
Proof.
  intros F p g N L W E. destruct (start_ok F p g N L W) as (o & Eo & _ & D & _); [unfold asked; rewrite E; exact I|]. exists o. split; [exact Eo|]. unfold posn_emin, posn_emax. rewrite D, E. split; reflexivity.
Qed.
Print Assumptions C99_bounds_code.
Example C99_bounds_ex : nth_error plane 1 = Some (gd 3 1 5) /\ olt (d_lo (gd 3 1 5)) (d_hi (gd 3 1 5)) /\ scale_of Qco (pars (Some 1) None) = c1.
Proof. repeat split. Qed.

(** copies *)
Definition C99_copy : Prop := forall F (p : ppars F) (g : list (dim_ F)) o d, g <> [] -> (forall a, In a g -> 2 <= d_n a) -> pp_dim p = Some d -> start F p g = Ok (o, true) ->
  (forall psi, posn_apply (posn_copy posn_new o) psi = posn_apply o psi) /\ posn_emin (posn_copy posn_new o) = posn_emin o /\ posn_emax (posn_copy posn_new o) = posn_emax o.
Theorem C99_copy_partial : forall F (t o : posn F) psi, posn_apply (posn_copy t o) psi = posn_apply o psi.
Proof. reflexivity. Qed.
Print Assumptions C99_copy_partial.
Theorem C99_copy_refuted : ~ C99_copy.
Proof.
  intros H. destruct (H Qco (pars (Some 0) None) plane (run posn_new (start Qco (pars (Some 0) None) plane)) 0 ltac:(discriminate) plane_wide eq_refl eq_refl) as (_ & X & _).
  apply (f_equal (fun z => match z with UB => true | _ => false end)) in X. discriminate X.
Qed.
Print Assumptions C99_copy_refuted.
Example C99_copy_ex : posn_apply (posn_copy posn_new (run posn_new (start Qco (pars (Some 0) None) plane))) [c1; c1; c1; c1; c1; c1] <> UB.
Proof. discriminate. Qed.
