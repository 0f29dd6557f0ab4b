(** Properties C34, C35, C36: propagators. *)
From Coq Require Import List ZArith Lia Bool.
From Verif Require Import Base Arrays Algebra Complex Model.Propagator Spec.Propagator Proofs.Propagator.
Import ListNotations.
Open Scope Z_scope.

(** * C34 *)
(** For every history of calls in which ImaginaryTime and RealTime come after a clock: the direction, the time type and the
    time step are the ones chosen last, and the exponent belongs to them. *)
Theorem C34_partial (R : cring) p h : phist R p h ->
  p_dt R p = h_dt R h /\ p_fwd R p = h_fwd R h /\ p_imag R p = h_imag R h /\ forall dt, h_dt R h = Some dt -> p_c0 R p = wanted R h dt.
Proof. exact (exponent_ok R p h). Qed.
(** Every call after a clock was set succeeds, so that the histories above go on. *)
Theorem C34_total (R : cring) p h c : phist R p h -> h_dt R h <> None -> exists p', pstep R p c = Ok p' /\ phist R p' (chosen R h c).
Proof.
  intros H D. assert (E : exists p', pstep R p c = Ok p').
  { pose proof (proj1 (exponent_ok R p h H)) as A. rewrite <- A in D. destruct (p_dt R p) as [dt|] eqn:Ed; [|congruence].
    destruct c as [x| | | | |[]|]; cbn [pstep]; unfold p_conj, p_forward, p_backward, p_imaginary, p_real; rewrite ?Ed; eexists; reflexivity. }
  destruct E as [p' E]. exists p'. split; [exact E|exact (ph_ok R p h c p' H E)].
Qed.
Print Assumptions C34_total.
(** Full statement: it holds for all orders of the calls. *)
Definition C34_full : Prop := forall (R : cring) p h c, phist R p h -> pstep R p c <> UB.
(** Choosing the time type before there is a clock dereferences a null pointer. *)
Theorem C34_code (R : cring) p h c : phist R p h -> (pstep R p c = UB <-> h_dt R h = None /\ (c = PImaginary R \/ c = PReal R)).
Proof.
  intros H. pose proof (proj1 (exponent_ok R p h H)) as A. rewrite <- A.
  destruct c as [x| | | | |[]|]; cbn [pstep]; unfold p_conj, p_forward, p_backward, p_imaginary, p_real; destruct (p_dt R p); split; intros Q; try discriminate; try tauto;
    destruct Q as [Q1 [Q|Q]]; discriminate.
Qed.
Print Assumptions C34_code.
Theorem C34_refuted : ~ C34_full.
Proof. intros H. apply (H Zr _ _ (PImaginary Zr) (ph_new Zr)). reflexivity. Qed.
Print Assumptions C34_refuted.
Example C34_ex : phist Zr (mkProp Zr (Some 3) (-3, 0) false true) (mkCh Zr (Some 3) false true).
Proof.
  apply (ph_ok Zr (mkProp Zr (Some 3) (0, 3) false false) (mkCh Zr (Some 3) false false) (PImaginary Zr)); [|reflexivity].
  apply (ph_ok Zr (mkProp Zr (Some 5) (0, 5) false false) (mkCh Zr (Some 5) false false) (PClock Zr 3)); [|reflexivity].
  apply (ph_ok Zr (mkProp Zr (Some 5) (0, -5) true false) (mkCh Zr (Some 5) true false) (PConj Zr true)); [|reflexivity].
  apply (ph_ok Zr (p_new Zr) (mkCh Zr None true false) (PClock Zr 5)); [|reflexivity].
  apply (ph_throw Zr (p_new Zr) (mkCh Zr None true false) (PBackward Zr)); [|reflexivity]. apply ph_new.
Qed.
Print Assumptions C34_partial.

(** * C36 *)
(** After any history of steps and copies a step uses the exponentials of the current time step and the current exponent. *)
Theorem C36_fresh (K : cring) X xeqb half ops s step c :
  (forall a b, xeqb a b = true -> a = b) -> Forall (honest K X) ops -> ghist K X xeqb half ops s ->
  init_exp K X xeqb half ops s step c = Ok (mkGspo K X (fresh K X half ops step c) step c).
Proof. intros E H G. apply init_exp_ok; [exact E|exact H|]. exact (ghist_known K X xeqb half E ops s H G). Qed.
(** A step is thereby the same function of the wave function, whatever happened before. *)
Theorem C36_step (K : cring) X xeqb half ops s t step c psi :
  (forall a b, xeqb a b = true -> a = b) -> Forall (honest K X) ops -> ghist K X xeqb half ops s -> ghist K X xeqb half ops t ->
  exists s' psi', gspo_apply K X xeqb half ops s step c psi = Ok (s', psi') /\ gspo_apply K X xeqb half ops t step c psi = Ok (s', psi').
Proof.
  intros E H Gs Gt. eexists. eexists. split; apply apply_ok; try assumption; eapply ghist_known; eassumption.
Qed.
Print Assumptions C36_step.

(** * C35 *)
(** A step and a step with the opposite exponent at the same time restore the wave function. *)
Theorem C35_reversible (K : cring) X xeqb half neg n ops s step c psi :
  (forall a b, xeqb a b = true -> a = b) -> (forall c, half (neg c) = neg (half c)) ->
  Forall (honest K X) ops -> Forall (fun o => reversible K X n o neg) ops -> ghist K X xeqb half ops s -> zlen psi = n ->
  exists s1 psi1 s2, gspo_apply K X xeqb half ops s step c psi = Ok (s1, psi1) /\ gspo_apply K X xeqb half ops s1 step (neg c) psi1 = Ok (s2, psi).
Proof. intros E N H Hr G L. apply (reverse_ok K X xeqb half E neg N n); try assumption. exact (ghist_known K X xeqb half E ops s H G). Qed.

(** Two operators on vectors of two elements; the second one with a transformation (of norm 1/1) and time dependent. *)
Definition ex_sg (c : Z) : Z := if Z.even c then 1 else -1.
Definition ex_tr : trafo Zr := mkTr Zr (fun v => rev v) (fun v => rev v) 1.
Definition ex_ops : list (gop Zr Z) :=
  [mkGop Zr Z false (fun _ c => [ex_sg c; 1]) None; mkGop Zr Z true (fun t c => [ex_sg (t * c); ex_sg c]) (Some ex_tr)].
Example C35_ex_ops : Forall (honest Zr Z) ex_ops /\ Forall (fun o => reversible Zr Z 2 o Z.opp) ex_ops.
Proof.
  assert (S : forall c, ex_sg c * ex_sg (- c) = 1) by (intros c; unfold ex_sg; rewrite Z.even_opp; destruct (Z.even c); reflexivity).
  split.
  - apply Forall_cons; [intros _ a b c; reflexivity|]. apply Forall_cons; [intros T; discriminate|apply Forall_nil].
  - apply Forall_cons; [|apply Forall_cons; [|apply Forall_nil]].
    + split; [reflexivity|]. split; [|exact I]. intros step c. unfold vmul. cbn [ex_ops g_exp combine map fst snd cmul Zr]. rewrite S. reflexivity.
    + split; [reflexivity|]. split.
      * intros step c. unfold vmul. cbn [ex_ops g_exp combine map fst snd cmul Zr]. rewrite S. replace (step * - c) with (- (step * c)) by lia. rewrite S. reflexivity.
      * split; [intros v Hv; unfold zlen in *; cbn [ex_tr t_fwd t_bwd]; rewrite rev_length; split; exact Hv|]. split; [intros a v _; cbn [ex_tr t_bwd]; unfold vscale; symmetry; apply map_rev|].
        exists 1. split; [reflexivity|]. assert (Q : forall v : list Z, rev (rev v) = vscale Zr 1 v). { intros v. rewrite rev_involutive. unfold vscale. rewrite <- (map_id v) at 1. apply map_ext. intros x. cbn [cmul Zr]. lia. }
        split; intros v _; apply (Q v).
Qed.
Example C35_ex : exists s1 s2, gspo_apply Zr Z Z.eqb (fun c => 3 * c) ex_ops (gspo_init Zr Z [[]; []] 0) 2 1 [5; 7] = Ok (s1, [-5; 7]) /\
  gspo_apply Zr Z Z.eqb (fun c => 3 * c) ex_ops s1 2 (-1) [-5; 7] = Ok (s2, [5; 7]).
Proof. eexists. eexists. split; reflexivity. Qed.
Example C36_ex : exists s1 s2 s3 p2 p3, gspo_apply Zr Z Z.eqb (fun c => 3 * c) ex_ops (gspo_init Zr Z [[]; []] 0) 2 1 [5; 7] = Ok (s1, [-5; 7]) /\
  gspo_apply Zr Z Z.eqb (fun c => 3 * c) ex_ops s1 3 1 [5; 7] = Ok (s2, p2) /\ s_exp Zr Z s2 <> s_exp Zr Z s1 /\
  gspo_apply Zr Z Z.eqb (fun c => 3 * c) ex_ops s2 3 (-2) [5; 7] = Ok (s3, p3) /\ s_exp Zr Z s3 <> s_exp Zr Z s2.
Proof. do 5 eexists. split; [reflexivity|]. split; [reflexivity|]. split; [discriminate|]. split; [reflexivity|]. discriminate. Qed.
Print Assumptions C36_fresh.
Print Assumptions C35_reversible.
