(** C95: the non-adiabatic coupling operator *)
From Coq Require Import QArith Qcanon.
From Coq Require Import Ascii String List ZArith Lia Bool.
From Verif Require Import Base Arrays Algebra Ordered Model.NAC Spec.NAC Proofs.NAC Proofs.NACEx.
Import ListNotations.
Open Scope Z_scope.

(** [F]: numbers; [M]: wave functions; [mul f]: multiplication with a grid function; [D j]: derivative in dimension j;
    [n_f o]: the coupling functions of the operator o, one for each dimension; [n_sign o], [n_mass o]: "sign" and "mass" *)

(** ** what is read: one function for each dimension, the sign, and for one dimension the mass *)
Theorem C95_init : forall (F : ofld) (V : Type) files (p : npars F) (o : nac F V), nac_init F V files (nac_new F V) p = Ok o ->
  exists d s, d = match np_dims p with Some d => d | None => 1 end /\ 1 <= d <= 4 /\ np_file p = Some s /\ zlen (n_f o) = d /\
    (forall i, 0 <= i < d -> exists f, rd (n_f o) i = Ok f /\ files (if match np_mass p with Some _ => d =? 1 | None => false end then s else (s ++ dec_print_Z i)%list) = Ok f) /\
    n_sign o = match np_sign p with Some x => x | None => c1 end /\
    n_mass o = match np_mass p with Some x => if d =? 1 then x else c1 | None => c1 end /\ n_buf o = false.
Proof.
  intros F V files p o. unfold nac_init. set (d := match np_dims p with Some d => d | None => 1 end). destruct ((d <? 1) || (4 <? d))%bool eqn:E; [discriminate|].
  apply orb_false_iff in E. destruct E as [E1 E2]. apply Z.ltb_ge in E1, E2. destruct (np_file p) as [s|]; [|discriminate].
  pose proof (load_list V files (nac_file F p d s) (upto 0 d) []) as L. destruct (foldM _ (upto 0 d) []) as [r| |]; [|discriminate|discriminate]. cbn [bind]. intros [= <-].
  cbn [n_f n_sign n_mass n_buf nac_new]. destruct L as (t & -> & T). cbn [app]. exists d, s. split; [reflexivity|]. split; [lia|]. split; [reflexivity|].
  assert (Lt : zlen t = d). { apply (f_equal (@length _)) in T. rewrite !map_length, upto_length in T. unfold zlen. lia. }
  split; [exact Lt|]. split.
  - intros i I. destruct (proj1 (rd_ok t i)) as [f Ef]; [rewrite Lt; exact I|]. exists f. split; [exact Ef|].
    pose proof (f_equal (fun l => rd l i) T) as X. cbv beta in X. rewrite map_map, !rd_map, Ef, rd_upto in X by lia. cbn [bind] in X. injection X as X. rewrite <- X. f_equal. unfold nac_file, given. destruct (np_mass p); reflexivity.
  - split; [reflexivity|]. split; [|reflexivity]. destruct (np_mass p), (d =? 1); reflexivity.
Qed.
Print Assumptions C95_init.
Definition qc (z : Z) : Qco := Q2Qc (inject_Z z).
Definition pt (a b : Z) : P2 := (qc a, qc b).
Definition disk (s : str) : outcome P2 := if str_eqb s (lit "nac") then Ok (pt 1 2) else if str_eqb s (lit "nac0") then Ok (pt 3 4) else if str_eqb s (lit "nac1") then Ok (pt 5 6) else Throw.
Example C95_init_ex : (exists o, nac_init Qco P2 disk (nac_new Qco P2) (mkNp None (Some (lit "nac")) None (Some (qc 2 : Qco))) = Ok o /\ n_f o = [(pt 1 2)]) /\
  (exists o, nac_init Qco P2 disk (nac_new Qco P2) (mkNp (Some 2) (Some (lit "nac")) None None) = Ok o /\ n_f o = [(pt 3 4); (pt 5 6)]).
Proof. split; eexists; split; reflexivity. Qed.

(** ** the file given is the coupling element of the one dimension *)
Definition C95_file : Prop := forall (F : ofld) (V : Type) files (p : npars F) (o : nac F V) s,
  nac_init F V files (nac_new F V) p = Ok o -> np_dims p = Some 1 -> np_file p = Some s -> exists f, files s = Ok f /\ n_f o = [f].
(** it is, if a mass is given *)
Theorem C95_file_partial : forall (F : ofld) (V : Type) files (p : npars F) (o : nac F V) s,
  nac_init F V files (nac_new F V) p = Ok o -> np_dims p = Some 1 -> np_file p = Some s -> np_mass p <> None -> exists f, files s = Ok f /\ n_f o = [f].
Proof.
  intros F V files p o s H Hd Hs Hm. destruct (C95_init F V files p o H) as (d & s' & E & _ & S & L & R & _). rewrite Hd in E. subst d. rewrite Hs in S. injection S as <-.
  destruct (R 0) as (f & A & B); [lia|]. destruct (np_mass p); [|congruence]. exists f. split; [exact B|]. destruct (n_f o) as [|g [|h t]]; [discriminate L| |unfold zlen in L; cbn [length] in L; lia].
  injection A as ->. reflexivity.
Qed.
Print Assumptions C95_file_partial.
(** without a mass another file is read *)
Theorem C95_file_refuted : ~ C95_file.
Proof.
  intros H. destruct (H Qco P2 disk (mkNp (Some 1) (Some (lit "nac")) None None) (mkNac [(pt 3 4)] c1 c1 false) (lit "nac") eq_refl eq_refl eq_refl) as (f & A & B).
  injection A as <-. injection B as B. discriminate B.
Qed.
Print Assumptions C95_file_refuted.

(** ** after Init with a wave function of the grid: sign / 2m sum_j (f_j d_j + d_j f_j), whatever the destination held *)
Theorem C95_apply : forall F M V mul D (o o' : nac F V) psi_dim fits dest psi,
  nac_psi F V o psi_dim fits = Ok o' -> n_f o <> [] -> n_mass o <> c0 -> (forall f, In f (n_f o) -> linear F M (mul f)) ->
  nac_apply F M V mul D o' dest psi = Ok (symmetric F M V mul D (fdiv (n_sign o) (n_mass o)) (n_f o) psi) /\
  nac_apply_in F M V mul D o' dest psi = Ok (symmetric F M V mul D (fdiv (n_sign o) (n_mass o)) (n_f o) psi).
Proof.
  intros F M V mul D o o' pd fits dest psi H N Ms L.
  assert (E : n_f o' = n_f o /\ n_sign o' = n_sign o /\ n_mass o' = n_mass o /\ n_buf o' = true).
  { unfold nac_psi in H. destruct pd; [|discriminate]. destruct (negb _); [discriminate|]. destruct (n_buf o) eqn:B; [injection H as <-; auto|]. destruct (forallb fits (n_f o)); [|discriminate].
    injection H as <-. cbn. auto. }
  destruct E as (E1 & E2 & E3 & E4). rewrite <- E1, <- E2, <- E3 in *. split; apply apply_symmetric; assumption.
Qed.
Print Assumptions C95_apply.
(** with the product rule, the formula of the handbook *)
Theorem C95_handbook : forall F M V mul D dv (o o' : nac F V) psi_dim fits dest psi,
  nac_psi F V o psi_dim fits = Ok o' -> n_f o <> [] -> n_mass o <> c0 -> (forall f, In f (n_f o) -> linear F M (mul f)) -> product_rule F M V mul D dv ->
  nac_apply F M V mul D o' dest psi = Ok (handbook F M V mul D dv (fdiv (n_sign o) (n_mass o)) (n_f o) psi).
Proof. intros F M V mul D dv o o' pd fits dest psi H N Ms L P. rewrite (proj1 (C95_apply F M V mul D o o' pd fits dest psi H N Ms L)). f_equal. apply symmetric_handbook. exact P. Qed.
Print Assumptions C95_handbook.
Definition two_dims : nac Qco P2 := mkNac [pt 1 2; pt 3 1] (qc (-1)) (qc 1) false.
Example C95_apply_ex : (exists o, nac_psi Qco P2 two_dims (Some 2) (fun _ => true) = Ok o) /\ n_f two_dims <> [] /\ n_mass two_dims <> (c0 : Qco) /\
  (forall f, linear Qco M2 (mulE f)) /\ product_rule Qco M2 P2 mulE DE dE /\
  handbook Qco M2 P2 mulE DE dE (fdiv (n_sign two_dims) (n_mass two_dims)) (n_f two_dims) (pt 1 1) = (qc 0, Q2Qc (-11 # 2)).
Proof.
  split; [eexists; reflexivity|]. split; [discriminate|]. split; [intros H; discriminate H|]. split; [exact mulE_linear|]. split; [exact rule_E|].
  cbn. unfold padd, mulE, DE, dE, pscale. cbn. f_equal; apply Qc_is_canon; vm_compute; reflexivity.
Qed.

(** ** without Init an operator can neither be applied nor copied *)
Definition C95_before : Prop := forall F M V mul D (o : nac F V) dest psi, nac_apply F M V mul D o dest psi <> UB /\ nac_copy F V o <> UB.
Theorem C95_before_code : forall F M V mul D (o : nac F V) dest psi, (nac_apply F M V mul D o dest psi = UB <-> n_buf o = false) /\ (nac_copy F V o = UB <-> n_buf o = false).
Proof.
  intros F M V mul D o dest psi. split; [|unfold nac_copy; destruct (n_buf o); split; congruence].
  destruct (n_buf o) eqn:B; [|unfold nac_apply; rewrite B; split; reflexivity]. split; [|discriminate]. intros H. exfalso.
  destruct (n_f o) as [|f l] eqn:E; [unfold nac_apply in H; rewrite B, E in H; discriminate H|].
  rewrite apply_terms in H; [discriminate H|exact B|rewrite E; discriminate].
Qed.
Print Assumptions C95_before_code.
Theorem C95_before_refuted : ~ C95_before.
Proof. intros H. destruct (H Qco M2 P2 mul2 D2 (nac_new Qco P2) m0 m0) as [A _]. apply A. reflexivity. Qed.
Print Assumptions C95_before_refuted.
(** ** a copy acts as the original; a second Init with a wave function changes nothing *)
Theorem C95_copy : forall F V (o o' : nac F V), nac_copy F V o = Ok o' -> o' = o.
Proof. intros F V [f s m b] o'. unfold nac_copy. cbn. destruct b; [|discriminate]. intros [= <-]. reflexivity. Qed.
Print Assumptions C95_copy.
Theorem C95_again : forall F V (o o1 o2 : nac F V) d1 g1 d2 g2, nac_psi F V o d1 g1 = Ok o1 -> nac_psi F V o1 d2 g2 = Ok o2 -> o2 = o1.
Proof.
  intros F V o o1 o2 d1 g1 d2 g2 H. assert (B : n_buf o1 = true).
  { unfold nac_psi in H. destruct d1; [|discriminate]. destruct (negb _); [discriminate|]. destruct (n_buf o) eqn:B; [injection H as <-; exact B|]. destruct (forallb _ _); [|discriminate]. injection H as <-. reflexivity. }
  unfold nac_psi. destruct d2; [|discriminate]. destruct (negb _); [discriminate|]. rewrite B. congruence.
Qed.
Print Assumptions C95_again.
(** ** wave functions of another kind, number of dimensions or grid are refused *)
Theorem C95_refused : forall F V (o o' : nac F V) d fits, nac_psi F V o d fits = Ok o' -> d = Some (zlen (n_f o)) /\ (n_buf o = false -> forall f, In f (n_f o) -> fits f = true).
Proof.
  intros F V o o' d fits. unfold nac_psi. destruct d as [d|]; [|discriminate]. destruct (zlen (n_f o) =? d) eqn:E; [|discriminate]. apply Z.eqb_eq in E. subst d. cbn [negb]. intros H. split; [reflexivity|].
  intros B. rewrite B in H. destruct (forallb fits (n_f o)) eqn:A; [|discriminate]. apply forallb_forall. exact A.
Qed.
Print Assumptions C95_refused.
Example C95_copy_ex : exists o, nac_psi Qco P2 two_dims (Some 2) (fun _ => true) = Ok o /\ nac_copy Qco P2 o = Ok o /\ nac_psi Qco P2 two_dims (Some 1) (fun _ => true) = Throw.
Proof. eexists. repeat split. Qed.

(** ** the operator is anti-hermitian; with opposite signs in the two places of a two state matrix the matrix is hermitian *)
Theorem C95_adjoint : forall F M C V mul D ip (o : nac F V) dx dy x y rx ry, scalar_product F M V mul D C ip ->
  n_f o <> [] -> n_mass o <> c0 -> (forall f, In f (n_f o) -> linear F M (mul f)) ->
  nac_apply F M V mul D o dx x = Ok rx -> nac_apply F M V mul D o dy y = Ok ry -> ip x ry = mopp (ip rx y).
Proof.
  intros F M C V mul D ip o dx dy x y rx ry S N Ms L Hx Hy. assert (B : n_buf o = true) by (unfold nac_apply in Hx; destruct (n_buf o); [reflexivity|discriminate]).
  rewrite apply_symmetric in Hx, Hy by assumption. injection Hx as <-. injection Hy as <-. apply (sym_adjoint F M C V mul D ip S).
Qed.
Print Assumptions C95_adjoint.
(** H (x1, x2) = (K x2, K' x1), K and K' with the same coupling and mass *)
Definition same_but_sign {F V} (o o' : nac F V) : Prop := n_f o' = n_f o /\ n_mass o' = n_mass o /\ n_sign o' = copp (n_sign o).
Theorem C95_coupling : forall F M C V mul D ip (o o' : nac F V) d x1 x2 y1 y2 kx2 kx1 ky2 ky1, scalar_product F M V mul D C ip ->
  n_f o <> [] -> n_mass o <> c0 -> (forall f, In f (n_f o) -> linear F M (mul f)) -> same_but_sign o o' ->
  nac_apply F M V mul D o d x2 = Ok kx2 -> nac_apply F M V mul D o' d x1 = Ok kx1 -> nac_apply F M V mul D o d y2 = Ok ky2 -> nac_apply F M V mul D o' d y1 = Ok ky1 ->
  madd (ip x1 ky2) (ip x2 ky1) = madd (ip kx2 y1) (ip kx1 y2).
Proof.
  intros F M C V mul D ip o o' d x1 x2 y1 y2 kx2 kx1 ky2 ky1 S N Ms L (E1 & E2 & E3) H1 H2 H3 H4.
  assert (B : n_buf o = true) by (unfold nac_apply in H1; destruct (n_buf o); [reflexivity|discriminate]).
  assert (B' : n_buf o' = true) by (unfold nac_apply in H2; destruct (n_buf o'); [reflexivity|discriminate]).
  rewrite apply_symmetric in H1, H3 by assumption. rewrite apply_symmetric in H2, H4; try assumption; try (rewrite E1; assumption); try (rewrite E2; assumption).
  injection H1 as <-. injection H2 as <-. injection H3 as <-. injection H4 as <-. rewrite E1, E2, E3.
  assert (X : forall z, symmetric F M V mul D (fdiv (copp (n_sign o)) (n_mass o)) (n_f o) z = mscale (copp c1) (symmetric F M V mul D (fdiv (n_sign o) (n_mass o)) (n_f o) z)).
  { intros z. unfold symmetric. generalize 0. clear -Ms. induction (n_f o) as [|f l IH]; intros k; cbn [over].
    - symmetry. apply (scale_0 F M).
    - rewrite IH, (mscale_add_r F M (copp c1)). f_equal. rewrite <- (mscale_mul F M). f_equal. apply scalar_neg. exact Ms. }
  rewrite !X. pose proof S as (_ & _ & S1 & S2 & _). rewrite S1, S2. set (K := symmetric F M V mul D (fdiv (n_sign o) (n_mass o)) (n_f o)).
  assert (Y : forall u v, ip u (K v) = mopp (ip (K u) v)) by (intros u v; apply (sym_adjoint F M C V mul D ip S)).
  assert (Z : forall c : C, mscale (copp c1) (mopp c) = c).
  { intros c. rewrite (neg_scale F C). apply (opp_opp F C). }
  rewrite (Y x2 y1), Z, (Y x1 y2), (madd_comm F C), (neg_scale F C). reflexivity.
Qed.
Print Assumptions C95_coupling.
Definition plus_op : nac Qco P2 := mkNac [(pt 1 2)] (qc 1) (qc 1) true.
Definition minus_op : nac Qco P2 := mkNac [(pt 1 2)] (qc (-1)) (qc 1) true.
Example C95_coupling_ex : scalar_product Qco M2 P2 mul2 D2 M1 ip2 /\ n_f plus_op <> [] /\ (forall f, linear Qco M2 (mul2 f)) /\ same_but_sign plus_op minus_op /\
  exists r, nac_apply Qco M2 P2 mul2 D2 plus_op m0 (pt 1 0) = Ok r /\ ip2 (pt 0 1) r <> qc 0.
Proof.
  split; [exact ip2_ok|]. split; [discriminate|]. split; [exact mul2_linear|]. split; [repeat split; apply Qc_is_canon; reflexivity|]. eexists. split; [reflexivity|].
  intros H. apply (f_equal this) in H. vm_compute in H. discriminate H.
Qed.
(** ** given in one place of a multi state operator, the other one is its adjoint (the operator says "Hij = Hji+", ChainLoader.cpp:88);
    what is put there is the operator itself (C32) *)
Definition C95_mirror : Prop := forall F M C V mul D ip (o : nac F V) d x1 x2 y1 y2 kx2 kx1 ky2 ky1, scalar_product F M V mul D C ip ->
  n_f o <> [] -> n_mass o <> c0 -> (forall f, In f (n_f o) -> linear F M (mul f)) ->
  nac_apply F M V mul D o d x2 = Ok kx2 -> nac_apply F M V mul D o d x1 = Ok kx1 -> nac_apply F M V mul D o d y2 = Ok ky2 -> nac_apply F M V mul D o d y1 = Ok ky1 ->
  madd (ip x1 ky2) (ip x2 ky1) = madd (ip kx2 y1) (ip kx1 y2).
Theorem C95_mirror_refuted : ~ C95_mirror.
Proof.
  intros H. specialize (H Qco M2 M1 P2 mul2 D2 ip2 plus_op m0 (pt 0 1) (pt 0 0) (pt 0 0) (pt 1 0)).
  specialize (fun a b c e => H a b c e ip2_ok). 
  assert (N : n_f plus_op <> []) by discriminate. assert (Ms : n_mass plus_op <> (c0 : Qco)) by (intros X; discriminate X).
  specialize (H _ _ _ _ N Ms (fun f _ => mul2_linear f) eq_refl eq_refl eq_refl eq_refl). apply (f_equal this) in H. vm_compute in H. discriminate H.
Qed.
Print Assumptions C95_mirror_refuted.

(** ** Emax bounds the operator *)
Definition C95_emax : Prop := forall (o : nac Qco P2) dest psi r, n_f o <> [] -> (n_sign o = c1 \/ n_sign o = copp c1) -> olt c0 (n_mass o) ->
  nac_apply Qco M2 P2 mul2 D2 o dest psi = Ok r -> ole (nrm2 r) (cmul (nac_emax Qco P2 max2 c1 o c1) (nrm2 psi)).
(** for couplings that are nowhere larger in modulus than the largest element, and no finer grid in another dimension than the first *)
Theorem C95_emax_partial : forall F M V mul D nrm vmax (o : nac F V) dest psi r pi dx, norm_like F M nrm ->
  n_f o <> [] -> (forall f, In f (n_f o) -> linear F M (mul f)) -> (n_sign o = c1 \/ n_sign o = copp c1) -> olt c0 (n_mass o) -> olt c0 dx -> ole c0 pi ->
  (forall f, In f (n_f o) -> ole c0 (vmax f) /\ forall x, ole (nrm (mul f x)) (cmul (vmax f) (nrm x))) ->
  (forall j x, ole (nrm (D j x)) (cmul (fdiv pi dx) (nrm x))) ->
  nac_apply F M V mul D o dest psi = Ok r -> ole (nrm r) (cmul (nac_emax F V vmax pi o dx) (nrm psi)).
Proof. intros F M V mul D nrm vmax o dest psi r pi dx N. exact (nac_bound F M V mul D nrm N vmax o dest psi r pi dx). Qed.
Print Assumptions C95_emax_partial.
(** a negative coupling: Emax is 0, the operator is not *)
Definition neg_op : nac Qco P2 := mkNac [pt (-2) 0] (qc 1) (qc 1) true.
Theorem C95_emax_refuted : ~ C95_emax.
Proof.
  intros H. specialize (H neg_op m0 (pt 1 0) _ ltac:(discriminate) (or_introl eq_refl) (one_pos Qco) eq_refl).
  destruct H as [H|H]; [|apply (f_equal this) in H]; vm_compute in H; discriminate H.
Qed.
Print Assumptions C95_emax_refuted.
Example C95_emax_ex : norm_like Qco M2 nrm2 /\ (forall f, linear Qco M2 (mul2 f)) /\ (forall j x, ole (nrm2 (D2 j x)) (cmul (fdiv c1 c1) (nrm2 x))).
Proof. split; [exact nrm2_ok|]. split; [exact mul2_linear|exact D2_norm]. Qed.
(** ** Emin is the estimate with the smallest elements, as Emax with the largest *)
Definition C95_emin : Prop := forall (F : ofld) (V : Type) vmin pi (o : nac F V) dx, nac_emin F V vmin pi o dx = nac_emax F V vmin pi o dx.
Theorem C95_emin_code : forall (F : ofld) (V : Type) vmin pi (o : nac F V) dx, nac_emin F V vmin pi o dx = c0.
Proof.
  intros F V vmin pi o dx. unfold nac_emin. replace (fold_left _ (n_f o) c0) with (c0 : F); [apply mul_0|]. induction (n_f o) as [|f l IH]; [reflexivity|exact IH].
Qed.
Print Assumptions C95_emin_code.
Theorem C95_emin_refuted : ~ C95_emin.
Proof. intros H. specialize (H Qco P2 min2 c1 plus_op c1). apply (f_equal this) in H. vm_compute in H. discriminate H. Qed.
Print Assumptions C95_emin_refuted.
