(** C101: the kinetic energy with absorbing layers. *)
From Coq Require Import QArith Qcanon List ZArith Lia Bool Arith Ring.
From Verif Require Import Base Arrays Algebra Ordered Model.OPML Spec.OPML Proofs.OPML.
Import ListNotations.
Open Scope Z_scope.

(** three grid points, central differences, the last point in the layer *)
Section Three.
  Variable F : ofld.
  Add Ring TPr : (cr_th F).
  Definition M3 : cmodule F.
  Proof.
    apply (mkMod F (F * F * F) (c0, c0, c0) (fun x y => let '(a, b, c) := x in let '(d, e, f) := y in (cadd a d, cadd b e, cadd c f)) (fun x => let '(a, b, c) := x in (copp a, copp b, copp c))
      (fun k x => let '(a, b, c) := x in (cmul k a, cmul k b, cmul k c))); intros; repeat match goal with x : (_ * _)%type |- _ => destruct x end; cbn; (apply f_equal2; [apply f_equal2|]); ring.
  Defined.
  Definition D3 (i : Z) (x : M3) : M3 := let '(a, b, c) := x in (b, csub c a, copp b).
  Definition P3 (cj : bool) (i : Z) (x : M3) : M3 := let '(a, b, c) := x in (a, b, cadd c c).
  Definition dot3 (x y : M3) : F := let '(a, b, c) := x in let '(d, e, f) := y in cadd (cmul a d) (cadd (cmul b e) (cmul c f)).
  Lemma dot3_ar x y z : dot3 x (madd y z) = cadd (dot3 x y) (dot3 x z). Proof. destruct x as [[? ?] ?], y as [[? ?] ?], z as [[? ?] ?]. cbn. ring. Qed.
  Lemma dot3_al x y z : dot3 (madd y z) x = cadd (dot3 y x) (dot3 z x). Proof. destruct x as [[? ?] ?], y as [[? ?] ?], z as [[? ?] ?]. cbn. ring. Qed.
  Lemma dot3_sr a x y : dot3 x (mscale a y) = cmul a (dot3 x y). Proof. destruct x as [[? ?] ?], y as [[? ?] ?]. cbn. ring. Qed.
  Lemma dot3_sl a x y : dot3 (mscale a x) y = cmul a (dot3 x y). Proof. destruct x as [[? ?] ?], y as [[? ?] ?]. cbn. ring. Qed.
  Lemma D3_anti i x y : dot3 (D3 i x) y = copp (dot3 x (D3 i y)). Proof. destruct x as [[? ?] ?], y as [[? ?] ?]. cbn. ring. Qed.
  Lemma P3_sym i x y : dot3 (P3 false i x) y = dot3 x (P3 true i y). Proof. destruct x as [[? ?] ?], y as [[? ?] ?]. cbn. ring. Qed.
  Lemma D3_linear i : linear (D3 i). Proof. split; intros; repeat match goal with x : md _ _ |- _ => destruct x as [[? ?] ?] end; cbn; (apply f_equal2; [apply f_equal2|]); ring. Qed.
End Three.
Definition qc (z : Z) : Qco := Q2Qc (inject_Z z).
Definition p3 (a b c : Z) : M3 Qco := (qc a, qc b, qc c).
Definition show (x : outcome (option (M3 Qco))) : option (Q * Q * Q) := match x with Ok (Some (a, b, c)) => Some (Qcanon.this a, Qcanon.this b, Qcanon.this c) | _ => None end.
Definition made (l : list Z) (d : Z) : kin Qco := mkKin (map qc l) d (Live d) false.

(** application *)
Definition C101_apply : Prop := forall (F : ofld) (M : cmodule F) D P mass d o c (psi : M), 0 <= d <= zlen mass -> begun F (Some mass) d = Ok o ->
  kin_apply D P (kin_set_conj o c) psi = Ok (Some (layered D (P c) (firstn (Z.to_nat d) mass) psi)).
Theorem C101_apply_partial : forall (F : ofld) (M : cmodule F) D P mass d o c (psi : M), 0 <= d <= zlen mass -> (forall m, In m (firstn (Z.to_nat d) mass) -> m <> c0) -> begun F (Some mass) d = Ok o ->
  kin_apply D P (kin_set_conj o c) psi = Ok (Some (layered D (P c) (firstn (Z.to_nat d) mass) psi)).
Proof. intros F M D P mass d o c psi L N E. exact (apply_ok F M D P mass d c psi o L N E). Qed.
Print Assumptions C101_apply_partial.
(** a mass 0 does not leave the dimension out *)
Theorem C101_apply_refuted : ~ C101_apply.
Proof.
  intros H. pose proof (H Qco (M3 Qco) (D3 Qco) (P3 Qco) [qc 0] 1 _ false (p3 1 0 0) ltac:(cbn; lia) eq_refl) as X.
  pose proof (zero_mass Qco (M3 Qco) (D3 Qco) (P3 Qco) [qc 0] 1 false (p3 1 0 0) _ 0 ltac:(lia) ltac:(cbn; lia) eq_refl eq_refl) as Y. rewrite X in Y. discriminate Y.
Qed.
Print Assumptions C101_apply_refuted.
Theorem C101_zero_code : forall (F : ofld) (M : cmodule F) D P mass d o c (psi : M) i, 0 <= i < d -> d <= zlen mass -> rd mass i = Ok c0 -> begun F (Some mass) d = Ok o -> kin_apply D P (kin_set_conj o c) psi = Ok None.
Proof. intros F M D P mass d o c psi i. exact (zero_mass F M D P mass d c psi o i). Qed.
Print Assumptions C101_zero_code.
(** masses for all dimensions are needed, and not asked for *)
Definition C101_masses : Prop := forall (F : ofld) mass d, zlen (match mass with Some l => l | None => [] end) < d -> begun F mass d = Throw.
Theorem C101_masses_refuted : ~ C101_masses.
Proof. intros H. specialize (H Qco (Some [qc 1]) 2 ltac:(cbn; lia)). discriminate H. Qed.
Print Assumptions C101_masses_refuted.
Theorem C101_masses_code : forall (F : ofld) (M : cmodule F) D P mass d o c (psi : M), zlen (match mass with Some l => l | None => [] end) < d -> begun F mass d = Ok o -> kin_apply D P (kin_set_conj o c) psi = UB.
Proof. intros F M D P mass d o c psi. exact (missing F M D P mass d c psi o). Qed.
Print Assumptions C101_masses_code.
Example C101_apply_ex : begun Qco (Some (map qc [2])) 1 = Ok (made [2] 1) /\ show (kin_apply (D3 Qco) (P3 Qco) (made [2] 1) (p3 4 8 (-4))) = Some (2, 6, -4 # 1)%Q.
Proof. split; reflexivity. Qed.

(** linear in the wave function *)
Theorem C101_linear : forall (F : ofld) (M : cmodule F) (D P : Z -> M -> M) masses, (forall i, linear (D i)) -> (forall i, linear (P i)) -> linear (layered D P masses).
Proof. exact layered_linear. Qed.
Print Assumptions C101_linear.
(** without layers hermitian *)
Definition form {F : ofld} {M : cmodule F} (dot : M -> M -> F) : Prop :=
  (forall x y z, dot x (madd y z) = cadd (dot x y) (dot x z)) /\ (forall x y z, dot (madd y z) x = cadd (dot y x) (dot z x)) /\
  (forall a x y, dot x (mscale a y) = cmul a (dot x y)) /\ (forall a x y, dot (mscale a x) y = cmul a (dot x y)).
Theorem C101_plain : forall (F : ofld) (M : cmodule F) (D : Z -> M -> M) masses dot, form dot -> (forall i x y, dot (D i x) y = copp (dot x (D i y))) ->
  forall x y, dot x (layered D (fun _ z => z) masses y) = dot (layered D (fun _ z => z) masses x) y.
Proof. intros F M D masses dot (A & B & C & E) An. exact (plain_herm F M D dot A B C E An masses). Qed.
Print Assumptions C101_plain.
(** "If set to true than a consecutive apply should carry H^dagger Psi" (Operator.h:213-219) *)
Definition C101_adjoint : Prop := forall (F : ofld) (M : cmodule F) D P masses dot, form dot -> (forall i x y, dot (D i x) y = copp (dot x (D i y))) -> (forall i x y, dot (P false i x) y = dot x (P true i y)) ->
  (forall m, In m masses -> m <> c0) -> forall o (x y tx ty : M), begun F (Some masses) (zlen masses) = Ok o -> kin_apply D P o x = Ok (Some tx) -> kin_apply D P (kin_set_conj o true) y = Ok (Some ty) -> dot tx y = dot x ty.
Lemma form3 : form (dot3 Qco).
Proof. split; [apply dot3_ar|]. split; [apply dot3_al|]. split; [apply dot3_sr|apply dot3_sl]. Qed.
Theorem C101_adjoint_refuted : ~ C101_adjoint.
Proof.
  intros H. assert (N : forall m, In m [qc 1] -> m <> c0) by (intros m [<-|[]] X; apply (f_equal (fun z : Qco => Qcanon.this z)) in X; discriminate X).
  pose proof (H Qco (M3 Qco) (D3 Qco) (P3 Qco) [qc 1] (dot3 Qco) form3 (D3_anti Qco) (P3_sym Qco) N (made [1] 1) (p3 1 0 0) (p3 0 0 1) _ _ eq_refl eq_refl eq_refl) as X.
  apply (f_equal (fun z : Qco => Qcanon.this z)) in X. discriminate X.
Qed.
Print Assumptions C101_adjoint_refuted.
(** the adjoint has the layers first *)
Theorem C101_adjoint_code : forall (F : ofld) (M : cmodule F) (D : Z -> M -> M) P masses dot, form dot -> (forall i x y, dot (D i x) y = copp (dot x (D i y))) -> (forall i x y, dot (P false i x) y = dot x (P true i y)) ->
  forall x y, dot (layered D (P false) masses x) y = dot x (msum (map (fun im : nat * F => let (i, m) := im in if left_out m then m0 else
    D (Z.of_nat i) (P true (Z.of_nat i) (D (Z.of_nat i) (mscale (copp (fdiv c1 (cmul (cadd c1 c1) m))) (P true (Z.of_nat i) y))))) (combine (seq 0 (length masses)) masses))).
Proof. intros F M D P masses dot (A & B & C & E) An Ad. exact (adjoint F M D dot A B C E An (P false) (P true) masses Ad). Qed.
Print Assumptions C101_adjoint_code.
Example C101_laws_ex : form (dot3 Qco) /\ (forall i, linear (D3 Qco i)) /\ (forall i x y, dot3 Qco (D3 Qco i x) y = copp (dot3 Qco x (D3 Qco i y))) /\ show (Ok (Some (D3 Qco 0 (p3 1 2 5)))) = Some (2, 4, -2 # 1)%Q.
Proof. split; [exact form3|]. split; [apply D3_linear|]. split; [apply D3_anti|reflexivity]. Qed.

(** Emax: no momentum of the grid has a larger kinetic energy *)
Theorem C101_emax : forall (F : ofld) (pi : F) dx mass d o ks, 0 <= d <= zlen mass -> (forall m, In m (firstn (Z.to_nat d) mass) -> olt c0 m) -> (forall j, olt c0 (dx j)) -> begun F (Some mass) d = Ok o ->
  length ks = Z.to_nat d -> (forall n k, nth_error ks n = Some k -> ole (cmul k k) (fdiv (cmul pi pi) (cmul (dx (Z.of_nat n)) (dx (Z.of_nat n))))) ->
  exists T, kin_emax dx o = Ok T /\ ole (energy (firstn (Z.to_nat d) mass) ks) (cmul (fdiv (cmul pi pi) (cadd c1 c1)) T).
Proof.
  intros F pi dx mass d o ks L N X E Lk K. exists (esum F dx 0 (firstn (Z.to_nat d) mass)). split; [exact (emax_ok F dx mass d o L N E)|].
  apply energy_le; [exact X|exact N|exact K|]. rewrite Lk, firstn_length. unfold zlen in L. lia.
Qed.
Print Assumptions C101_emax.
Example C101_emax_ex : match kin_emax (fun _ => qc 2) (made [1; 2] 2) with Ok T => Qcanon.this T = (3 # 8)%Q | _ => False end.
Proof. reflexivity. Qed.

(** Init and copies *)
Theorem C101_init : forall (F : ofld) (o : kin F) mass d psi, kin_psi (kin_params kin_new mass) None = @Throw (kin F) /\ (begun F mass d = Ok o -> kin_psi o psi = Ok o).
Proof. intros F o mass d psi. split; [reflexivity|]. intros E. injection E as <-. reflexivity. Qed.
Print Assumptions C101_init.
Definition C101_copy : Prop := forall (F : ofld) (M : cmodule F) D P mass d o c, begun F (Some mass) d = Ok o -> exists t, kin_copy kin_new (Some (kin_set_conj o c)) = Ok (t, true) /\ forall psi : M, kin_apply D P t psi = kin_apply D P (kin_set_conj o c) psi.
Theorem C101_copy_partial : forall (F : ofld) (M : cmodule F) D P mass d o, begun F (Some mass) d = Ok o -> exists t, kin_copy kin_new (Some o) = Ok (t, true) /\ forall psi : M, kin_apply D P t psi = kin_apply D P o psi.
Proof. intros F M D P mass d o E. injection E as <-. eexists. split; [reflexivity|]. reflexivity. Qed.
Print Assumptions C101_copy_partial.
(** conjugation is not copied *)
Theorem C101_copy_refuted : ~ C101_copy.
Proof.
  intros H. set (P := fun (c : bool) (i : Z) (x : M3 Qco) => if c then m0 else x). destruct (H Qco (M3 Qco) (D3 Qco) P [qc 1] 1 (made [1] 1) true eq_refl) as (t & E & A). injection E as <-. specialize (A (p3 1 0 0)). apply (f_equal show) in A. discriminate A.
Qed.
Print Assumptions C101_copy_refuted.
(** copying an operator that was not set up calls a method of a null pointer, and the attempt to copy another kind leaves freed buffers *)
Theorem C101_copy_code : forall (F : ofld) (M : cmodule F) D P mass d o, begun F (Some mass) d = Ok o ->
  kin_copy o (Some (kin_params kin_new (Some mass))) = UB /\ exists t, kin_copy o None = Ok (t, false) /\ forall psi : M, kin_apply D P t psi = UB.
Proof. intros F M D P mass d o E. injection E as <-. split; [reflexivity|]. eexists. split; [reflexivity|]. reflexivity. Qed.
Print Assumptions C101_copy_code.
Example C101_copy_ex : kin_copy kin_new (Some (made [2] 1)) = Ok (made [2] 1, true).
Proof. reflexivity. Qed.

(** the parameters do not touch the conjugation of the layers *)
Theorem C101_conj_kept : forall (F : ofld) (o : kin F) mass d c o', kin_psi (kin_params (kin_set_conj o c) mass) d = Ok o' -> k_conj o' = c.
Proof. intros F o mass d c o'. unfold kin_psi. destruct (k_buf _); try (intros [= <-]; reflexivity). destruct d; [intros [= <-]; reflexivity|discriminate]. Qed.
Print Assumptions C101_conj_kept.
Example C101_conj_kept_ex : exists o', kin_psi (kin_params (kin_set_conj (@kin_new Qco) true) None) (Some 2) = Ok o' /\ k_conj o' = true.
Proof. eexists. split; reflexivity. Qed.
