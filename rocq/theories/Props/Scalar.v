(** C100: constants and the normalisation as operators. *)
From Coq Require Import QArith Qcanon List ZArith Lia Bool Arith.
From Verif Require Import Base Arrays Algebra Complex Ordered Model.Scalar Spec.Scalar Proofs.Scalar.
Import ListNotations.
Open Scope Z_scope.

Definition qc (z : Z) : Qco := Q2Qc (inject_Z z).
Definition pt (a b : Z) : Cx Qco := (qc a, qc b).
Definition show (l : list (Cx Qco)) : list (Q * Q) := map (fun c : Cx Qco => (Qcanon.this (fst c), Qcanon.this (snd c))) l.
Definition spv (a b : option Z) : spars Qco := @mkSP Qco (option_map qc a) (option_map qc b).

(** application *)
Theorem C100_apply : forall (F : ofld) (o : scal F) (dest psi : list (Cx F)), length dest = length psi ->
  times (sc_value o) psi (scal_apply o psi) /\ scal_apply_to o dest psi = Ok (scal_apply o psi).
Proof. intros F o dest psi L. split; [apply times_map|exact (apply_to F o dest psi L)]. Qed.
Print Assumptions C100_apply.
(** the constant *)
Definition C100_value : Prop := forall (F : ofld) (p : spars F), sc_value (built F p) = constant (sp_value p) (sp_im p).
Theorem C100_value_partial : forall (F : ofld) (p : spars F) x, sp_value p = Some x -> sc_value (built F p) = constant (sp_value p) (sp_im p).
Proof. exact value_given. Qed.
Print Assumptions C100_value_partial.
(** the default 1.0 is not used *)
Theorem C100_value_refuted : ~ C100_value.
Proof. intros H. specialize (H Qco (spv None None)). apply (f_equal (fun c : Cx Qco => Qcanon.this (fst c))) in H. discriminate H. Qed.
Print Assumptions C100_value_refuted.
Theorem C100_value_code : forall (F : ofld) (p : spars F), sp_value p = None -> sc_value (built F p) = (c0, match sp_im p with Some x => x | None => c0 end).
Proof. exact value_absent. Qed.
Print Assumptions C100_value_code.
Example C100_apply_ex : show (scal_apply (built Qco (spv (Some 2) (Some 1))) [pt 1 0; pt 0 1; pt 3 (-1)]) = [(2, 1); (-1 # 1, 2); (7, 1)]%Q /\
  show (scal_apply (built Qco (spv (Some 2) None)) [pt 1 1]) = [(2, 2)]%Q /\ show (scal_apply (built Qco (spv None None)) [pt 1 1]) = [(0, 0)]%Q.
Proof. repeat split. Qed.

(** matrix elements, after Init with a wave function *)
Theorem C100_element : forall (F : ofld) (w : F) (o o' : scal F) psi (bra ket : list (Cx F)) s, scal_psi o (Some psi) = Ok o' -> product w bra ket s ->
  exists o'', scal_element w o' bra ket = Ok (cmul (sc_value o) s, o'') /\ sc_value o'' = sc_value o.
Proof.
  intros F w o o' psi bra ket s E P. assert (X : exists n, sc_buf o' = Some n /\ sc_value o' = sc_value o).
  { unfold scal_psi in E. destruct (sc_buf o) as [n|] eqn:B; injection E as <-; [exists n|eexists]; split; try reflexivity. exact B. }
  destruct X as (n & B & V). destruct (element F w o' n bra ket s B P) as (o'' & E1 & E2 & _). rewrite V in *. exists o''. split; [exact E1|congruence].
Qed.
Print Assumptions C100_element.
Theorem C100_before_code : forall (F : ofld) (w : F) (p : spars F) (bra ket : list (Cx F)), scal_element w (built F p) bra ket = UB /\ scal_valid (built F p) (Some ket) = UB.
Proof. intros. split; reflexivity. Qed.
Print Assumptions C100_before_code.
Theorem C100_valid : forall (F : ofld) (p : spars F) (psi x : list (Cx F)), exists o, scal_psi (built F p) (Some psi) = Ok o /\ scal_valid o (Some x) = Ok (zlen x =? zlen psi) /\ scal_valid o None = Ok false /\ scal_psi (built F p) None = Throw.
Proof. intros. eexists. repeat split. Qed.
Print Assumptions C100_valid.
Example C100_element_ex : exists o s, scal_psi (built Qco (spv (Some 2) (Some 1))) (Some [pt 0 1]) = Ok o /\ product (qc 3) [pt 0 1] [pt 1 0] s /\ show [s] = [(0, -3 # 1)]%Q.
Proof. eexists. eexists. split; [reflexivity|]. split; [apply p_cons, p_nil|reflexivity]. Qed.

(** Emin and Emax refer to the absolute value (Operator.h:254-265) *)
Theorem C100_bounds : forall (F : ofld) (o : scal F), ole (size2 (scal_emin o)) (size2 (sc_value o)) /\ ole (size2 (sc_value o)) (size2 (scal_emax o)).
Proof.
  intros F o. split; [|right; reflexivity]. rewrite emin_zero. apply size2_nonneg.
Qed.
Print Assumptions C100_bounds.
(** hermitian, as it says *)
Definition C100_hermitian : Prop := forall (F : ofld) (w : F) (o : scal F), scal_hermitian o = true -> forall a b s t, product w a (scal_apply o b) s -> product w (scal_apply o a) b t -> s = t.
Theorem C100_hermitian_partial : forall (F : ofld) (w : F) (o : scal F), snd (sc_value o) = c0 -> forall a b s t, product w a (scal_apply o b) s -> product w (scal_apply o a) b t -> s = t.
Proof. exact hermitian_real. Qed.
Print Assumptions C100_hermitian_partial.
(** a constant that is not real calls itself hermitian *)
Theorem C100_hermitian_refuted : ~ C100_hermitian.
Proof.
  intros H. pose proof (H Qco (qc 1) (built Qco (spv (Some 0) (Some 1))) eq_refl [pt 1 0] [pt 1 0] _ _ (p_cons _ _ _ _ _ _ _ (p_nil _ _)) (p_cons _ _ _ _ _ _ _ (p_nil _ _))) as X.
  apply (f_equal (fun c : Cx Qco => Qcanon.this (snd c))) in X. discriminate X.
Qed.
Print Assumptions C100_hermitian_refuted.

(** copies *)
Theorem C100_copy : forall (F : ofld) (t o : scal F), exists c, scal_copy t (Some o) = Ok c /\ (forall psi, scal_apply c psi = scal_apply o psi) /\ scal_emax c = scal_emax o /\
  (sc_buf o <> None -> (forall w bra ket, scal_element w c bra ket = scal_element w o bra ket) /\ (forall psi, scal_valid c psi = scal_valid o psi)) /\ scal_copy t None = Throw.
Proof.
  intros F t o. eexists. split; [reflexivity|]. repeat split; intros; unfold scal_element, scal_valid; cbn [sc_buf sc_value]; destruct (sc_buf o); try contradiction; reflexivity.
Qed.
Print Assumptions C100_copy.
Example C100_copy_ex : exists o c, scal_psi (built Qco (spv (Some 2) None)) (Some [pt 1 0]) = Ok o /\ scal_copy scal_new (Some o) = Ok c /\ sc_buf c = Some 1.
Proof. eexists. eexists. repeat split. Qed.

(** ** ONormalize *)
Theorem C100_norm : forall (F : ofld) (w : F) root (dest x y : list (Cx F)), root_of F w root x -> onorm_apply w root x = Some y ->
  product w y y c1 /\ times (fdiv c1 (root (fst (sprod w x x))), c0) x y /\ onorm_apply_to w root dest x = Some y /\ (root c1 = c1 -> onorm_apply w root y = Some y).
Proof.
  intros F w root dest x y R E. destruct (normalized F w root x y R E) as [U T]. split; [|split; [exact T|split; [exact E|intros R1; exact (twice F w root x y R R1 E)]]].
  rewrite <- U. apply product_ok. reflexivity.
Qed.
Print Assumptions C100_norm.
(** all wave functions but 0 *)
Theorem C100_norm_some : forall (F : ofld) (w : F) root (x : list (Cx F)), root_of F w root x -> onorm_apply w root x <> None <-> fst (sprod w x x) <> c0.
Proof. exact normalize_some. Qed.
Print Assumptions C100_norm_some.
Theorem C100_norm_zero : forall (F : ofld) (w : F) (x : list (Cx F)), olt c0 w -> (fst (sprod w x x) = c0 <-> Forall (fun c => c = c0) x).
Proof. exact zero_norm. Qed.
Print Assumptions C100_norm_zero.
Definition root25 (a : Qco) : Qco := if Qc_eq_dec a (qc 25) then qc 5 else a.
Example C100_norm_ex : root_of Qco (qc 1) root25 [pt 3 0; pt 0 4] /\ option_map show (onorm_apply (qc 1) root25 [pt 3 0; pt 0 4]) = Some [(3 # 5, 0); (0, 4 # 5)]%Q /\ olt c0 (qc 1) /\ root25 c1 = c1.
Proof. split; [apply Qc_is_canon; reflexivity|]. split; [reflexivity|]. split; [reflexivity|apply Qc_is_canon; reflexivity]. Qed.

(** a source with fewer elements than the destination is read beyond its end *)
Theorem C100_short_code : forall (F : ofld) (o : scal F) (dest psi : list (Cx F)), zlen psi < zlen dest -> scal_apply_to o dest psi = UB.
Proof. intros F o dest psi L. unfold scal_apply_to. apply Z.ltb_lt in L. rewrite L. reflexivity. Qed.
Print Assumptions C100_short_code.
Example C100_short_ex : zlen [pt 1 0] < zlen [pt 1 0; pt 2 0].
Proof. cbn. lia. Qed.
