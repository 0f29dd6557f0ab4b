(** C87: the momentum kick *)
From Coq Require Import Reals.
From Coq Require Import List ZArith Lia Bool Arith QArith Qcanon.
From Verif Require Import Base Arrays Algebra Complex Ordered RealField Model.Grid Spec.Grid Model.Kick Spec.Kick Proofs.Kick.
Import ListNotations.
Open Scope Z_scope.

(** [kvalid p q]: "dims" absent or matching, 1 to 4 dimensions with points, at most as many components of k;
    [kstart p q]: a new operator, Init with the parameters, Init with a wave function on the grid q;
    [kvec p]: the components of k times the scale *)

(** ** the factor at every grid point is exp(i k.x), and Apply multiplies by it *)
Theorem C87_wave : forall (F : ofld) cexp p q, kvalid F p q -> exists K t, kstart F cexp p q = Ok K /\ k_exp K = Some t /\
  wave_table F cexp (kg_ds q) (kg_x0 q) (kg_dx q) (kvec F p) t /\
  forall psi, zlen psi = points (kg_ds q) -> kick_apply F K psi = Ok (kmul F psi t).
Proof.
  intros F cexp p q V. destruct (kstart_ok F cexp p q V) as (K & t & E & Et & _ & _ & _ & _ & T). exists K, t. do 3 (split; [assumption|]).
  intros psi L. unfold kick_apply. rewrite Et. cbn [get_opt bind]. destruct T as [T _]. rewrite L, T, Z.eqb_refl. reflexivity.
Qed.
Print Assumptions C87_wave.
Definition box2 : kgeom Qco := @mkKG Qco [2; 3] (fun _ => Q2Qc 1) (fun _ => Q2Qc (1 # 2)).
Definition kick2 : kparams Qco := @mkKP Qco (Some 2) (Some (Q2Qc 2)) [Q2Qc 3].
Example C87_wave_ex : kvalid Qco kick2 box2.
Proof. constructor; cbn; [reflexivity|lia|lia|repeat constructor]. Qed.

(** ** the norm is conserved; kicks add; the opposite kick undoes a kick.  [exp_law]: the exponential of a sum is the product,
    of zero it is one, and it commutes with conjugation *)
Example C87_law_ex : exp_law Ro Rcexp.
Proof.
  constructor; [exact Rcexp_add|exact Rcexp_0|]. intros [x y]. unfold Rcexp, cx_conj. cbn [fst snd].
  apply (@cx_eq Ro); cbn [fst snd copp Ro o_f Rf Rr]; cbn; [rewrite cos_neg|rewrite sin_neg]; ring.
Qed.
Theorem C87_norm : forall (F : ofld) cexp p q K psi, exp_law F cexp -> kvalid F p q -> kstart F cexp p q = Ok K ->
  zlen psi = points (kg_ds q) -> exists r, kick_apply F K psi = Ok r /\ knorm F r = knorm F psi.
Proof.
  intros F cexp p q K psi EX V E L. destruct (C87_wave F cexp p q V) as (K' & t & E' & _ & T & A). rewrite E in E'. injection E' as <-.
  eexists. split; [exact (A psi L)|]. apply kmul_norm.
  - exact (wave_unit F cexp EX _ _ _ _ _ (kv_pos F p q V) T).
  - destruct T as [T _]. unfold zlen in *. lia.
Qed.
Print Assumptions C87_norm.
Theorem C87_add : forall (F : ofld) cexp p p' p'' q K K' K'' psi, exp_law F cexp -> kvalid F p q -> kvalid F p' q -> kvalid F p'' q ->
  kstart F cexp p q = Ok K -> kstart F cexp p' q = Ok K' -> kstart F cexp p'' q = Ok K'' ->
  (forall d, (d < length (kg_ds q))%nat -> nth d (kvec F p'') c0 = (nth d (kvec F p) c0 + nth d (kvec F p') c0)%cr) ->
  zlen psi = points (kg_ds q) -> exists r, kick_apply F K psi = Ok r /\ kick_apply F K' r = kick_apply F K'' psi.
Proof.
  intros F cexp p p' p'' q K K' K'' psi EX V V' V'' E E' E'' H L.
  destruct (C87_wave F cexp p q V) as (X & t & EX1 & _ & T & A). rewrite E in EX1. injection EX1 as <-.
  destruct (C87_wave F cexp p' q V') as (X & t' & EX1 & _ & T' & A'). rewrite E' in EX1. injection EX1 as <-.
  destruct (C87_wave F cexp p'' q V'') as (X & t'' & EX1 & _ & T'' & A''). rewrite E'' in EX1. injection EX1 as <-.
  eexists. split; [exact (A psi L)|]. pose proof T as [Lt _]. pose proof T' as [Lt' _]. rewrite A', A''.
  - rewrite kmul_assoc by (unfold zlen in *; lia). rewrite (wave_mul F cexp EX _ _ _ _ _ _ _ _ _ (kv_pos F p q V) T T' T'' H). reflexivity.
  - exact L.
  - unfold zlen in *. rewrite kmul_len; lia.
Qed.
Print Assumptions C87_add.
Theorem C87_inverse : forall (F : ofld) cexp p p' q K K' psi, exp_law F cexp -> kvalid F p q -> kvalid F p' q ->
  kstart F cexp p q = Ok K -> kstart F cexp p' q = Ok K' ->
  (forall d, (d < length (kg_ds q))%nat -> nth d (kvec F p') c0 = (- nth d (kvec F p) c0)%cr) ->
  zlen psi = points (kg_ds q) -> exists r, kick_apply F K psi = Ok r /\ kick_apply F K' r = Ok psi.
Proof.
  intros F cexp p p' q K K' psi EX V V' E E' H L. 
  assert (V0 : kvalid F (mkKP None None []) q).
  { constructor; cbn; [exact I|exact (kv_len F p q V)|lia|exact (kv_pos F p q V)]. }
  destruct (C87_wave F cexp _ q V0) as (K0 & t0 & E0 & _ & T0 & A0).
  destruct (C87_add F cexp p p' (mkKP None None []) q K K' K0 psi EX V V' V0 E E' E0) as (r & R1 & R2).
  - intros d Hd. rewrite (H d Hd). cbn. destruct d; rewrite (Ropp_def (cr_th F)); reflexivity.
  - exact L.
  - exists r. split; [exact R1|]. rewrite R2, (A0 psi L). f_equal. assert (K1 : forall l s, length l = length s -> (forall z, In z s -> z = c1) -> kmul F l s = l).
    { induction l as [|a l IH]; intros [|z s] Ln Hz; try discriminate; [reflexivity|]. injection Ln as Ln. cbn [kmul].
      rewrite IH by (auto; intros; apply Hz; right; assumption). rewrite (Hz z (or_introl eq_refl)). f_equal.
      rewrite (Rmul_comm (cr_th (Cx F))). apply (Rmul_1_l (cr_th (Cx F))). }
    apply K1; [destruct T0 as [T0 _]; unfold zlen in *; lia|]. intros z Hz. apply in_rd in Hz. destruct Hz as (i & Hi & Ez).
    destruct T0 as [L0 T0]. destruct (Proofs.Grid.flat_surj (kg_ds q) i (kv_pos F p q V)) as (cs & Hc & <-); [lia|]. rewrite (T0 cs Hc) in Ez. injection Ez as <-.
    rewrite <- (ex_0 F cexp EX). f_equal. unfold im. apply cx_eq; [reflexivity|]. cbn [snd]. apply zero_dot.
Qed.
Print Assumptions C87_inverse.
(** in one dimension, a kick by n steps of the momentum grid shifts the Fourier transform by n steps *)
Theorem C87_momentum : forall (F : ofld) cexp N x0 dx dk n m psi t, exp_law F cexp -> 0 < N -> zlen psi = N ->
  wave_table F cexp [N] (fun _ => x0) (fun _ => dx) [(ofZ n * dk)%cr] t ->
  fourier F cexp (dk * dx)%cr (at_j F (kmul F psi t)) N m =
  (cexp (im F (ofZ n * dk * x0)) * fourier F cexp (dk * dx)%cr (at_j F psi) N (m - n))%cr.
Proof. intros F cexp N x0 dx dk n m psi t EX. apply shift. exact EX. Qed.
Print Assumptions C87_momentum.

(** the documented parameters k0, k1, ... are not read: without "k" nothing happens *)
Theorem C87_none_code : forall (F : ofld) cexp q dims scale K psi, exp_law F cexp -> kvalid F (mkKP dims scale []) q ->
  kstart F cexp (mkKP dims scale []) q = Ok K -> zlen psi = points (kg_ds q) -> kick_apply F K psi = Ok psi.
Proof.
  intros F cexp q dims scale K psi EX V E L. destruct (C87_inverse F cexp _ _ q K K psi EX V V E E) as (r & R1 & R2).
  - intros d _. apply zero_opp.
  - exact L.
  - destruct (C87_add F cexp _ _ _ q K K K psi EX V V V E E E) as (r' & R1' & R2').
    + intros d _. apply zero_add.
    + exact L.
    + rewrite R1' in R1. injection R1 as <-. rewrite R2' in R2. exact R2.
Qed.
Print Assumptions C87_none_code.

(** ** the bounds Emin and Emax: every factor has absolute value one *)
Theorem C87_emax_refuted : ~ (forall (F : ofld) (K : kick F) t z, k_exp K = Some t -> In z t -> 
  ole (fst z * fst z + snd z * snd z)%cr (fst (kick_emax F K) * fst (kick_emax F K) + snd (kick_emax F K) * snd (kick_emax F K))%cr).
Proof.
  intros H. destruct (H Qco (@mkKick Qco [] (Some [c1]) (k_grid (new_kick Qco)) (k_par (new_kick Qco))) [c1] c1 eq_refl (or_introl eq_refl)) as [X|X]; vm_compute in X; discriminate.
Qed.
Print Assumptions C87_emax_refuted.

(** ** copies *)
(** a copy of an operator acts as the operator *)
Definition C87_copy : Prop := forall (F : ofld) cexp p q K psi, kvalid F p q -> kstart F cexp p q = Ok K -> zlen psi = points (kg_ds q) ->
  exists C, kick_copy F (new_kick F) K = Ok C /\ kick_apply F C psi = kick_apply F K psi.
(** every copy of an initialised operator is undefined: the vector of the momenta has no storage *)
Theorem C87_copy_code : forall (F : ofld) (o : kick F), kg_ds (k_grid o) <> [] -> kick_copy F (new_kick F) o = UB.
Proof.
  intros F o NE. unfold kick_copy. rewrite upto_cons by (destruct (kg_ds (k_grid o)); [contradiction|cbn [length]; lia]).
  cbn [foldM bind new_kick k_kn]. unfold rd, wr. cbn. destruct (k_kn o); reflexivity.
Qed.
Print Assumptions C87_copy_code.
Theorem C87_copy_refuted : ~ C87_copy.
Proof.
  intros H. destruct (C87_wave Qco (fun _ => c1) kick2 box2 C87_wave_ex) as (K & t & E & _ & [L _] & _).
  destruct (H Qco (fun _ => c1) kick2 box2 K t C87_wave_ex E L) as (C & X & _). rewrite C87_copy_code in X; [discriminate|].
  destruct (kstart_ok Qco (fun _ => c1) kick2 box2 C87_wave_ex) as (K' & t' & E' & _ & G & _). rewrite E in E'. injection E' as <-. rewrite G. discriminate.
Qed.
Print Assumptions C87_copy_refuted.
(** before the number of dimensions is known a copy is complete: it has the parameters, and Init makes the same operator *)
Theorem C87_copy_partial : forall (F : ofld) cexp p q K, kp_dims p = None -> kick_params F (new_kick F) p = Ok K ->
  exists C, kick_copy F (new_kick F) K = Ok C /\ kick_psi F cexp C (Some q) = kick_psi F cexp K (Some q).
Proof.
  intros F cexp p q K D E. unfold kick_params in E. rewrite D in E. injection E as <-. eexists. split; reflexivity.
Qed.
Print Assumptions C87_copy_partial.
(** a copy into an operator that has been used keeps the old factors *)
Theorem C87_stale_code : forall (F : ofld) (K o C : kick F) t psi, k_exp K = Some t -> kick_copy F K o = Ok C ->
  kick_apply F C psi = kick_apply F K psi /\ k_grid C = k_grid o.
Proof.
  intros F K o C t psi E H. unfold kick_copy in H. destruct (foldM _ _ _) as [kn| |]; try discriminate. cbn [bind] in H. injection H as <-.
  unfold kick_apply. cbn [k_exp k_grid]. rewrite E. split; [reflexivity|]. destruct (k_exp o); reflexivity.
Qed.
Print Assumptions C87_stale_code.
Example C87_stale_ex : exists C, kick_copy Qco (@mkKick Qco [Q2Qc 1] (Some [c1]) (k_grid (new_kick Qco)) (k_par (new_kick Qco)))
  (@mkKick Qco [Q2Qc 2] (Some [c0]) (@mkKG Qco [1] (fun _ => Q2Qc 0) (fun _ => Q2Qc 1)) (k_par (new_kick Qco))) = Ok C.
Proof. eexists. reflexivity. Qed.
(** Init with a second wave function is ignored *)
Theorem C87_again_code : forall (F : ofld) cexp (K : kick F) t q, k_exp K = Some t -> kick_psi F cexp K (Some q) = Ok K.
Proof. intros F cexp K t q E. unfold kick_psi. rewrite E. reflexivity. Qed.
Print Assumptions C87_again_code.
(** more components of k than dimensions, or another number of dimensions, are refused *)
Theorem C87_reject : forall (F : ofld) cexp (K : kick F) q, k_exp K = None ->
  (length (kg_ds q) < length (kp_k (k_par K)) \/ (length (kg_ds (k_grid K)) <> 0 /\ length (kg_ds (k_grid K)) <> length (kg_ds q)))%nat ->
  kick_psi F cexp K (Some q) = Throw.
Proof.
  intros F cexp K q E H. unfold kick_psi. rewrite E. destruct (Nat.eqb_spec (length (kg_ds (k_grid K))) 0) as [Z|Z].
  - destruct H as [H|[H _]]; [|contradiction]. unfold kset_dim. destruct (_ || _); [reflexivity|]. cbn [bind kg_ds]. rewrite repeat_length, Nat2Z.id, Nat.eqb_refl.
    cbn [negb]. destruct (Nat.ltb_spec (length (kg_ds q)) (length (kp_k (k_par K)))); [reflexivity|lia].
  - cbn [bind]. destruct (Nat.eqb_spec (length (kg_ds (k_grid K))) (length (kg_ds q))) as [Eq|]; [|reflexivity]. cbn [negb].
    destruct (Nat.ltb_spec (length (kg_ds (k_grid K))) (length (kp_k (k_par K)))); [reflexivity|]. destruct H as [H|[_ H]]; [lia|contradiction].
Qed.
Print Assumptions C87_reject.
Example C87_reject_ex : kick_psi Qco (fun _ => c1) (@mkKick Qco [] None (@mkKG Qco [] (fun _ => Q2Qc 0) (fun _ => Q2Qc 1)) (@mkKP Qco None None [Q2Qc 1; Q2Qc 1]))
  (Some (@mkKG Qco [5] (fun _ => Q2Qc 0) (fun _ => Q2Qc 1))) = Throw.
Proof. reflexivity. Qed.
