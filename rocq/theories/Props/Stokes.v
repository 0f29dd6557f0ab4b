(** C110: the friction operators. *)
From Coq Require Import QArith Qcanon.
From Coq Require Import List ZArith Lia Bool.
From Verif Require Import Base Arrays Algebra Complex Ordered Proofs.ODMultistateEx Model.Stokes Spec.Stokes Proofs.Stokes.
Import ListNotations.
Open Scope Z_scope.

(** ** Friction by the velocity (OGridStokesAlbrecht) *)
(** The result should be the strength times the velocity times the displacement from the mean position. *)
Definition C110_albrecht : Prop := forall (F : ofld) n (dv pi : F) sq (X T : (Z -> Cx F) -> Z -> Cx F) e R w (s : alb F) k,
  alb_init F pi (Some e) (Some R) = Ok (al_eta s) -> hermitian F n dv X -> hermitian F n dv T ->
  olt c0 (fst (inner F n dv w w)) -> root F sq (fst (inner F n dv w w)) -> 0 <= k < n ->
  snd (alb_apply F n dv sq X T true s w) k = drag F n dv (cmul (cmul (cmul (six_of F) pi) e) R) T X w k.
(** two points: hopping and the second point *)
Definition hop (f : Z -> Cx Qco) (k : Z) : Cx Qco := if k =? 0 then f 1 else f 0.
Definition second (f : Z -> Cx Qco) (k : Z) : Cx Qco := if k =? 0 then c0 else f k.
Definition w25 (k : Z) : Cx Qco := if k =? 0 then (q 3, q 0) else (q 0, q 4).
Definition w1 (k : Z) : Cx Qco := if k =? 0 then (fr 3 5, q 0) else (q 0, fr 4 5).
Section Ex.
  Add Ring QrS : (cr_th Qco).
  Lemma hop_h : hermitian Qco 2 c1 hop.
  Proof. intros a b. unfold inner, hop. rewrite upto2. cbn [lsum Z.eqb]. apply cx_eq; cbn -[Qcplus Qcmult Qcopp Qcminus Qco]; ring. Qed.
  Lemma second_h : hermitian Qco 2 c1 second.
  Proof. intros a b. unfold inner, second. rewrite upto2. cbn [lsum Z.eqb]. apply cx_eq; cbn -[Qcplus Qcmult Qcopp Qcminus Qco]; ring. Qed.
  Add Ring QcrS : (cr_th (Cx Qco)).
  Lemma second_linear : linear Qco 2 second.
  Proof. intros a b f g k _. unfold second. destruct (k =? 0); [ring|reflexivity]. Qed.
End Ex.
Theorem C110_albrecht_refuted : ~ C110_albrecht.
Proof.
  intros H. pose proof (H Qco 2 c1 c1 (fun _ => q 5) second hop c1 c1 w25 (@mkAlb Qco (q 6) (q 0) (q 0)) 0) as E.
  assert (E' : Qeq_bool (this (fst (snd (alb_apply Qco 2 c1 (fun _ => q 5) second hop true (@mkAlb Qco (q 6) (q 0) (q 0)) w25) 0)))
                        (this (fst (drag Qco 2 c1 (cmul (cmul (cmul (six_of Qco) c1) c1) c1) hop second w25 0))) = false) by (vm_compute; reflexivity).
  rewrite E in E'.
  - (rewrite Qeq_bool_refl in E'; discriminate).
  - unfold alb_init; f_equal; apply qc_eq; vm_compute; reflexivity.
  - exact second_h.
  - exact hop_h.
  - vm_compute. reflexivity.
  - split; [left; vm_compute; reflexivity|]. apply qc_eq. vm_compute. reflexivity.
  - lia.
Qed.
Print Assumptions C110_albrecht_refuted.
(** Missing for the full statement: wave functions of another norm than one. *)
Theorem C110_albrecht_partial : forall (F : ofld) n (dv pi : F) sq (X T : (Z -> Cx F) -> Z -> Cx F) e R w (s : alb F) k,
  alb_init F pi (Some e) (Some R) = Ok (al_eta s) -> hermitian F n dv X -> hermitian F n dv T -> fst (inner F n dv w w) = c1 -> root F sq c1 ->
  snd (alb_apply F n dv sq X T true s w) k = drag F n dv (cmul (cmul (cmul (six_of F) pi) e) R) T X w k.
Proof. exact albrecht. Qed.
Print Assumptions C110_albrecht_partial.
(** Friction has no mean value: it does not shift the energy of a normalised state. *)
Theorem C110_balanced : forall (F : ofld) n (dv : F) sq (X T : (Z -> Cx F) -> Z -> Cx F) e w (s : alb F),
  hermitian F n dv X -> fst (inner F n dv w w) = c1 -> root F sq c1 -> al_eta s = e -> inner F n dv w (snd (alb_apply F n dv sq X T true s w)) = c0.
Proof. exact balanced. Qed.
Print Assumptions C110_balanced.
(** Without recalculation the values stay, and the operator is linear: as propagators that apply it several times in a step need. *)
Theorem C110_kept : forall (F : ofld) n (dv : F) sq (X T : (Z -> Cx F) -> Z -> Cx F) (s : alb F) (a b : Cx F) f g k, linear F n X -> 0 <= k < n ->
  fst (alb_apply F n dv sq X T false s f) = s /\
  snd (alb_apply F n dv sq X T false s (fun k => cadd (cmul a (f k)) (cmul b (g k)))) k =
    cadd (cmul a (snd (alb_apply F n dv sq X T false s f) k)) (cmul b (snd (alb_apply F n dv sq X T false s g) k)) /\
  snd (alb_apply F n dv sq X T false s f) k = cmul (cx_of (cmul (al_eta s) (al_ve s))) (csub (X f k) (cmul (cx_of (al_xe s)) (f k))).
Proof. exact kept. Qed.
Print Assumptions C110_kept.
(** Missing parameters and other numbers of operators than two are refused. *)
Theorem C110_alb_refused : forall (F : ofld) (pi : F) eta R size,
  (alb_init F pi eta R = Throw <-> eta = None \/ R = None) /\ (alb_ready false size = Throw <-> size <> 2).
Proof.
  intros F pi eta R size. split.
  - destruct eta, R; cbn; split; auto; try discriminate; intros [H|H]; discriminate.
  - unfold alb_ready. destruct (Z.eqb_spec size 2); split; try discriminate; auto. intros H. contradiction.
Qed.
Print Assumptions C110_alb_refused.

(** ** Friction by position and momentum (OGridStokes) *)
(** Without a shape ("slope" zero or absent) the result should be the operator of the documentation. *)
Definition C110_stokes : Prop := forall (F : ofld) n (dv pi : F) sq (X P : (Z -> Cx F) -> Z -> Cx F) sgm sgmi mem xmin dx (s : stokes F) w k,
  st_slope s = c0 -> hermitian F n dv X -> hermitian F n dv P -> local F n X -> local F n P -> fst (inner F n dv w w) = c1 -> root F sq c1 -> 0 <= k < n ->
  snd (stokes_apply F n dv pi sq X P true (stokes_shape F sgm sgmi mem xmin dx s) w) k =
  friction F n dv (cmul (cmul (cmul (fdiv (st_eta s) (st_mass s)) (st_R s)) (six_of F)) pi) (st_c s) X P w k.
(** What the code does: instead of x - <x> it uses m + <x>, with m the content of memory that nothing was written to. *)
Theorem C110_stokes_code : forall (F : ofld) n (dv pi : F) sq (X P : (Z -> Cx F) -> Z -> Cx F) sgm sgmi mem xmin dx (s : stokes F) w k,
  st_slope s = c0 -> local F n X -> local F n P -> fst (inner F n dv w w) = c1 -> root F sq c1 -> 0 <= k < n ->
  snd (stokes_apply F n dv pi sq X P true (stokes_shape F sgm sgmi mem xmin dx s) w) k =
  cmul (cx_of (cmul (cmul (cmul (fdiv (st_eta s) (st_mass s)) (st_R s)) (six_of F)) pi)) (cadd
    (cmul (cx_of (st_c s)) (csub (cmul (cx_of (fdiv c1 (cadd c1 c1))) (cadd (X (P w) k) (P (X w) k))) (cmul (cx_of (mean F n dv X w)) (P w k))))
    (cmul (cx_of (cmul (csub c1 (st_c s)) (mean F n dv P w))) (cmul (cx_of (cadd (mem k) (mean F n dv X w))) (w k)))).
Proof. exact stokes_exact. Qed.
Print Assumptions C110_stokes_code.
Definition st_ex (c : Qc) : stokes Qco := @mkStokes Qco (q 2) (q 3) (q 4) c (q 0) (q 0) (q 0) (q 0) (fun _ => q 0) (fun _ => q 0).
Lemma second_local : local Qco 2 second.
Proof. intros f g H k Hk. unfold second. destruct (k =? 0); [reflexivity|]. apply H, Hk. Qed.
Lemma hop_local : local Qco 2 hop.
Proof. intros f g H k Hk. unfold hop. destruct (k =? 0); apply H; lia. Qed.
Definition ones (k : Z) : Cx Qco := if k =? 0 then (fr 3 5, q 0) else (fr 4 5, q 0).
Theorem C110_stokes_refuted : ~ C110_stokes.
Proof.
  intros H. pose proof (H Qco 2 c1 c1 (fun _ => q 1) second hop (fun _ _ _ => q 0) (fun _ _ _ => q 0) (fun k => if k =? 0 then q 0 else q 1) (q 0) (q 1) (st_ex (q 0)) ones 0) as E.
  assert (E' : Qeq_bool (this (fst (snd (stokes_apply Qco 2 c1 c1 (fun _ => q 1) second hop true
      (stokes_shape Qco (fun _ _ _ => q 0) (fun _ _ _ => q 0) (fun k => if k =? 0 then q 0 else q 1) (q 0) (q 1) (st_ex (q 0))) ones) 0)))
    (this (fst (friction Qco 2 c1 (cmul (cmul (cmul (fdiv (st_eta (st_ex (q 0))) (st_mass (st_ex (q 0)))) (st_R (st_ex (q 0)))) (six_of Qco)) c1) (st_c (st_ex (q 0))) second hop ones 0))) = false)
    by (vm_compute; reflexivity).
  rewrite E in E'.
  - (rewrite Qeq_bool_refl in E'; discriminate).
  - apply qc_eq. vm_compute. reflexivity.
  - exact second_h.
  - exact hop_h.
  - exact second_local.
  - exact hop_local.
  - apply qc_eq. vm_compute. reflexivity.
  - split; [left; vm_compute; reflexivity|]. apply qc_eq. vm_compute. reflexivity.
  - lia.
Qed.
Print Assumptions C110_stokes_refuted.
(** Missing for the full statement: weights other than one, where the part with the mean momentum is wrong. *)
Theorem C110_stokes_partial : forall (F : ofld) n (dv pi : F) sq (X P : (Z -> Cx F) -> Z -> Cx F) sgm sgmi mem xmin dx (s : stokes F) w k,
  st_slope s = c0 -> st_c s = c1 -> local F n X -> local F n P -> fst (inner F n dv w w) = c1 -> root F sq c1 -> 0 <= k < n ->
  snd (stokes_apply F n dv pi sq X P true (stokes_shape F sgm sgmi mem xmin dx s) w) k =
  friction F n dv (cmul (cmul (cmul (fdiv (st_eta s) (st_mass s)) (st_R s)) (six_of F)) pi) (st_c s) X P w k.
Proof. exact stokes_one. Qed.
Print Assumptions C110_stokes_partial.
(** Exactly missing parameters and weights outside of 0..1 are refused. *)
Theorem C110_stokes_refused : forall (F : ofld) (mass eta R c x0 slope : option F),
  stokes_init F mass eta R c x0 slope = Throw <-> mass = None \/ eta = None \/ R = None \/ exists v, c = Some v /\ (olt v c0 \/ olt c1 v).
Proof. exact stokes_init_exact. Qed.
Print Assumptions C110_stokes_refused.

(** ** Friction by a change of momentum (OGridGStokes) *)
(** However often the operator was initialised with the wave function, the state should get the momentum that friction leaves in one step. *)
Definition C110_kick : Prop := forall (F : ofld) (pi : F) cexp max eta R m dt d G p q src, 0 <= d <= max -> (0 < m)%nat ->
  exists w, gs_run F pi cexp max (Some eta) (Some R) (Some d) m dt d G p q src = Ok w /\
    forall k, w k = cmul (cexp (cmul (cx_of (lsum (fun i => cmul (slowed F pi eta R dt d G p i k) (q i k)) (upto 0 d))) cx_i)) (src k).
Theorem C110_kick_refuted : ~ C110_kick.
Proof.
  intros H. destruct (H Qco c1 (fun x => x) 1 c1 c1 2%nat (q 2) 1 (fun _ _ _ => q 1) (fun _ => q 1) (fun _ _ => q 1) (fun _ => c1)) as (w & E & Ew); [lia|lia|].
  destruct (twice Qco c1 (fun x => x) 1 c1 c1 (q 2) 1 (fun _ _ _ => q 1) (fun _ => q 1) (fun _ _ => q 1) (fun _ => c1)) as (w' & E1 & E2); [lia|].
  rewrite E in E1. injection E1 as <-.
  destruct (kick_one Qco c1 (fun x => x) 1 c1 c1 (cmul (q 2 : Qco) (q 2 : Qco)) 1 (fun _ _ _ => q 1) (fun _ => q 1) (fun _ _ => q 1) (fun _ => c1)) as (w'' & E3 & Ew'); [lia|].
  rewrite E2 in E3. injection E3 as <-. pose proof (Ew 0) as A. rewrite Ew' in A. apply (f_equal (fun z => Qnum (this (snd z)))) in A. vm_compute in A. discriminate.
Qed.
Print Assumptions C110_kick_refuted.
(** Missing for the full statement: repeated initialisation. *)
Theorem C110_kick_partial : forall (F : ofld) (pi : F) cexp max eta R dt d G p q src, 0 <= d <= max ->
  exists w, gs_run F pi cexp max (Some eta) (Some R) (Some d) 1 dt d G p q src = Ok w /\
    forall k, w k = cmul (cexp (cmul (cx_of (lsum (fun i => cmul (slowed F pi eta R dt d G p i k) (q i k)) (upto 0 d))) cx_i)) (src k).
Proof. exact kick_one. Qed.
Print Assumptions C110_kick_partial.
(** Two initialisations are one with the square of the time step. *)
Theorem C110_twice_code : forall (F : ofld) (pi : F) cexp max eta R dt d G p q src, 0 <= d <= max ->
  exists w, gs_run F pi cexp max (Some eta) (Some R) (Some d) 2 dt d G p q src = Ok w /\ gs_run F pi cexp max (Some eta) (Some R) (Some d) 1 (cmul dt dt) d G p q src = Ok w.
Proof. exact twice. Qed.
Print Assumptions C110_twice_code.
(** The density stays at each point. *)
Theorem C110_density : forall (F : ofld) (pi : F) cexp max eta R m dt d G p q src, 0 <= d <= max ->
  (forall x : F, cmul (cx_conj (cexp (cmul (cx_of x) cx_i))) (cexp (cmul (cx_of x) cx_i)) = (c1 : Cx F)) ->
  exists w, gs_run F pi cexp max (Some eta) (Some R) (Some d) m dt d G p q src = Ok w /\ forall k, cmul (cx_conj (w k)) (w k) = cmul (cx_conj (src k)) (src k).
Proof. exact density. Qed.
Print Assumptions C110_density.
(** Wave functions of other dimensions than the parameter: fewer, and more than twice as many, are refused; otherwise a null pointer is followed. *)
Theorem C110_dims_code : forall (F : ofld) (pi : F) cexp max eta R dims m dt d G p q src, 0 <= dims <= max -> (0 < m)%nat ->
  (d < dims -> gs_run F pi cexp max (Some eta) (Some R) (Some dims) m dt d G p q src = Throw) /\
  (2 * dims < d -> gs_run F pi cexp max (Some eta) (Some R) (Some dims) m dt d G p q src = Throw) /\
  (dims < d <= 2 * dims -> gs_run F pi cexp max (Some eta) (Some R) (Some dims) m dt d G p q src = UB).
Proof. exact outside. Qed.
Print Assumptions C110_dims_code.
Theorem C110_gs_refused : forall (F : ofld) (pi : F) cexp max eta R par m dt d G p q src, eta = None \/ R = None \/ (exists k, par = Some k /\ (k < 0 \/ max < k)) ->
  gs_run F pi cexp max eta R par m dt d G p q src = Throw.
Proof. exact gs_refused. Qed.
Print Assumptions C110_gs_refused.

(** Without "dims" there is one dimension. *)
Theorem C110_default : forall (F : ofld) (pi : F) cexp max eta R m dt d G p q src, 1 <= max ->
  gs_run F pi cexp max eta R None m dt d G p q src = gs_run F pi cexp max eta R (Some 1) m dt d G p q src.
Proof. exact one_dim. Qed.
Print Assumptions C110_default.

(** Examples *)
Example C110_ex_albrecht : hermitian Qco 2 c1 second /\ hermitian Qco 2 c1 hop /\ linear Qco 2 second /\ fst (inner Qco 2 c1 w1 w1) = c1 /\ root Qco (fun _ => q 1) c1 /\
  velocity Qco 2 c1 hop second w1 <> q 0.
Proof.
  split; [exact second_h|]. split; [exact hop_h|]. split.
  - exact second_linear.
  - split; [apply qc_eq; vm_compute; reflexivity|]. split; [split; [left; vm_compute; reflexivity|apply qc_eq; vm_compute; reflexivity]|].
    intros E. apply (f_equal (fun z => Qnum (this z))) in E. vm_compute in E. discriminate.
Qed.
Example C110_ex_stokes : local Qco 2 second /\ local Qco 2 hop /\ st_slope (st_ex (q 1)) = c0 /\ st_c (st_ex (q 1)) = c1 /\ fst (inner Qco 2 c1 ones ones) = c1.
Proof. split; [exact second_local|]. split; [exact hop_local|]. repeat split; apply qc_eq; vm_compute; reflexivity. Qed.
(** an exponential of absolute value one on imaginary numbers: 1 or (3+4i)/5 *)
Definition unit_exp (x : Cx Qco) : Cx Qco := if Qeq_bool (this (snd x)) 0 then c1 else (fr 3 5, fr 4 5).
Example C110_ex_density : forall x : Qco, cmul (cx_conj (unit_exp (cmul (cx_of x) cx_i))) (unit_exp (cmul (cx_of x) cx_i)) = (c1 : Cx Qco).
Proof. intros x. unfold unit_exp. destruct (Qeq_bool _ 0); apply cx_qc; vm_compute; reflexivity. Qed.
