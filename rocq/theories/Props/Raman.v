(** C96: the Raman coupling to two lasers *)
From Coq Require Import Ascii String List ZArith Lia Bool Arith QArith Qcanon.
From Verif Require Import Base Arrays Algebra Complex Ordered Model.Potential Spec.Potential Proofs.Potential Model.Dipole Spec.Dipole Proofs.Dipole Model.Raman Spec.Raman Proofs.Raman.
Import ListNotations.
Open Scope Z_scope.

(** [raman k alpha e1 e2 psi r]: r is k E1 alpha E2 psi; [field_of lfs lp i]: the field file asked for as number i; [moment p s d]: the
    stored values plus the offset, times s; [suits c l]: the laser l fits the clock c; [ram_start p lp c t]: Init, Clock, step t *)

(** ** the coupling is E1 alpha E2 at step t *)
Definition C96_coupling : Prop := forall (F : ofld) lfs fs p lp f g d E0 E1 dt0 dt1 c t e0 e1 psi, names p -> fs (p_file p) = Some f -> complete f g d ->
  field_of lfs lp 0 = Some (E0, dt0) -> field_of lfs lp 1 = Some (E1, dt1) -> suits c (E0, dt0) -> suits c (E1, dt1) -> 0 <= t ->
  nth_error E0 (Z.to_nat t) = Some e0 -> nth_error E1 (Z.to_nat t) = Some e1 -> length psi = length d ->
  exists R r, ram_start F lfs fs p lp c t = Ok R /\ ram_apply R psi = Ok (Some r) /\ raman c1 (moment p (scale_of p) d) e0 e1 psi r.
(** it has the factor - 1/2; both lasers are scaled again by the scale the operator has after reading *)
Theorem C96_coupling_code : forall (F : ofld) lfs fs p lp f g d E0 E1 dt0 dt1 c t e0 e1 psi, names p -> fs (p_file p) = Some f -> complete f g d ->
  field_of lfs lp 0 = Some (E0, dt0) -> field_of lfs lp 1 = Some (E1, dt1) -> suits c (E0, dt0) -> suits c (E1, dt1) -> 0 <= t ->
  nth_error E0 (Z.to_nat t) = Some e0 -> nth_error E1 (Z.to_nat t) = Some e1 -> length psi = length d ->
  exists R r, ram_start F lfs fs p lp c t = Ok R /\ ram_apply R psi = Ok (Some r) /\
    raman (copp half) (moment p (cmul (scale_of p) (cmul (file_scale f p) (file_scale f p))) d) e0 e1 psi r.
Proof. exact raman_code. Qed.
Print Assumptions C96_coupling_code.
Definition pt1 : list (axis Qco) := [@mkAx Qco 1 (Q2Qc 0) (Q2Qc 1)].
Definition ask (s : option Qco) : pars Qco := @mkPars Qco 0 (lit "alpha") false (Q2Qc 0) s [].
Definition beams : nlpars := mkNL (fun i => if (i =? 1)%nat then Some (lit "stokes") else None) (Some (lit "pump")).
Definition disk (n : str) : option (list Qco * Qco) := Some (if str_eqb n (lit "pump") then [Q2Qc 3; Q2Qc (-5)] else [Q2Qc 2; Q2Qc 7], Q2Qc 1).
Definition tick2 : clk Qco := @mkClk Qco (Q2Qc 1) 2 0.
Definition unit_alpha (_ : str) : option (file Qco) := Some (@Strm Qco pt1 [Q2Qc 1]).
Lemma pt1_complete (d : list Qco) : length d = 1%nat -> complete (@Strm Qco pt1 d) pt1 d.
Proof. intros L. split; [constructor|]. split; [split; [cbn; lia|intros a [<-|[]]; split; [cbn; lia|reflexivity]]|]. unfold zlen. rewrite L. reflexivity. Qed.
Lemma ask_names s : names (ask s).
Proof. split; [cbn; lia|discriminate]. Qed.
Lemma suits2 (a b : Qco) : suits tick2 ([a; b], Q2Qc 1).
Proof. split; [reflexivity|change (2 <= 2); lia]. Qed.
Theorem C96_coupling_refuted : ~ C96_coupling.
Proof.
  intros H. pose proof (H Qco disk unit_alpha (ask None) beams (@Strm Qco pt1 [Q2Qc 1]) pt1 [Q2Qc 1] [Q2Qc 3; Q2Qc (-5)] [Q2Qc 2; Q2Qc 7] (Q2Qc 1) (Q2Qc 1) tick2 0 (Q2Qc 3) (Q2Qc 2) [c1] (ask_names _) eq_refl (pt1_complete [Q2Qc 1] eq_refl) eq_refl eq_refl (suits2 _ _) (suits2 _ _)
    (Z.le_refl 0) eq_refl eq_refl eq_refl) as (R & r & A & B & _ & C).
  pose proof (raman_code Qco disk unit_alpha (ask None) beams (@Strm Qco pt1 [Q2Qc 1]) pt1 [Q2Qc 1] [Q2Qc 3; Q2Qc (-5)] [Q2Qc 2; Q2Qc 7] (Q2Qc 1) (Q2Qc 1) tick2 0 (Q2Qc 3) (Q2Qc 2) [c1] (ask_names _) eq_refl (pt1_complete [Q2Qc 1] eq_refl) eq_refl eq_refl (suits2 _ _) (suits2 _ _)
    (Z.le_refl 0) eq_refl eq_refl eq_refl) as (R' & r' & A' & B' & _ & C').
  rewrite A in A'. injection A' as <-. rewrite B in B'. injection B' as <-.
  specialize (C 0%nat _ _ eq_refl eq_refl). specialize (C' 0%nat _ _ eq_refl eq_refl). rewrite C in C'. apply (f_equal (fun o => match o with Some z => Qcanon.this (fst z) | None => 0%Q end)) in C'.
  vm_compute in C'. discriminate C'.
Qed.
Print Assumptions C96_coupling_refuted.
(** up to the factor - 1/2 it is, without a scale, and with a scale for files with a meta file that has none *)
Theorem C96_coupling_partial : forall (F : ofld) lfs fs p lp f g d E0 E1 dt0 dt1 c t e0 e1 psi, names p -> fs (p_file p) = Some f -> complete f g d -> file_scale f p = c1 ->
  field_of lfs lp 0 = Some (E0, dt0) -> field_of lfs lp 1 = Some (E1, dt1) -> suits c (E0, dt0) -> suits c (E1, dt1) -> 0 <= t ->
  nth_error E0 (Z.to_nat t) = Some e0 -> nth_error E1 (Z.to_nat t) = Some e1 -> length psi = length d ->
  exists R r, ram_start F lfs fs p lp c t = Ok R /\ ram_apply R psi = Ok (Some r) /\ raman (copp half) (moment p (scale_of p) d) e0 e1 psi r.
Proof.
  intros F lfs fs p lp f g d E0 E1 dt0 dt1 c t e0 e1 psi N Ef C S L0 L1 S0 S1 T H0 H1 Lp.
  destruct (raman_code F lfs fs p lp f g d E0 E1 dt0 dt1 c t e0 e1 psi N Ef C L0 L1 S0 S1 T H0 H1 Lp) as (R & r & A & B & X). exists R, r. split; [exact A|]. split; [exact B|].
  rewrite S in X. rewrite (Ring_theory.Rmul_1_l (cr_th F)), (Ring_theory.Rmul_comm (cr_th F)), (Ring_theory.Rmul_1_l (cr_th F)) in X. exact X.
Qed.
Print Assumptions C96_coupling_partial.
Example C96_coupling_ex : names (ask None) /\ complete (@Strm Qco pt1 [Q2Qc 1]) pt1 [Q2Qc 1] /\ file_scale (@Strm Qco pt1 [Q2Qc 1]) (ask None) = (c1 : Qco) /\
  field_of disk beams 0 = Some ([Q2Qc 3; Q2Qc (-5)], Q2Qc 1) /\ field_of disk beams 1 = Some ([Q2Qc 2; Q2Qc 7], Q2Qc 1).
Proof. split; [apply ask_names|]. split; [apply pt1_complete; reflexivity|]. repeat split. Qed.

(** ** the two fields: laser0, laser1, or laser for both; without one, or one that cannot be read or does not fit the clock, the operator is refused *)
Theorem C96_fields : forall (F : ofld) lfs fs (R : ram F) p lp, r_init R = false -> length (r_ls R) = 2%nat ->
  (field_of lfs lp 0 = None \/ field_of lfs lp 1 = None -> snd (ram_init F lfs fs R p lp) = Throw /\ r_init (fst (ram_init F lfs fs R p lp)) = false) /\
  (forall E0 dt0 E1 dt1, field_of lfs lp 0 = Some (E0, dt0) -> field_of lfs lp 1 = Some (E1, dt1) ->
    map ls_data (r_ls (fst (ram_init F lfs fs R p lp))) = [map Some E0; map Some E1] /\ map ls_dt (r_ls (fst (ram_init F lfs fs R p lp))) = [dt0; dt1]).
Proof.
  intros F lfs fs R p lp I L. unfold ram_init. rewrite I. split.
  - intros H. assert (X : snd (lasers_init F lfs lp 0 (r_ls R)) = Throw).
    { destruct (snd (lasers_init F lfs lp 0 (r_ls R))) as [[]| |] eqn:E; [|reflexivity|exfalso; exact (lasers_no_ub F lfs lp _ _ E)].
      exfalso. pose proof (proj1 (lasers_ok F lfs lp (r_ls R) 0) E) as K. destruct H as [H|H]; [apply (K 0%nat); [rewrite L; lia|exact H]|apply (K 1%nat); [rewrite L; lia|exact H]]. }
    destruct (lasers_init F lfs lp 0 (r_ls R)) as [l r]. cbn [snd] in X. subst r. split; reflexivity.
  - intros E0 dt0 E1 dt1 H0 H1. rewrite field_name in H0, H1. destruct (r_ls R) as [|a [|b [|? ?]]]; try discriminate L. cbn [lasers_init].
    destruct (laser_name lp 0) as [n0|]; [|discriminate H0]. rewrite H0. destruct (laser_name lp 1) as [n1|]; [|discriminate H1]. rewrite H1.
    destruct (pot_init F fs dip_emin (r_pot R) p). split; reflexivity.
Qed.
Print Assumptions C96_fields.
Theorem C96_refused : forall (F : ofld) lfs fs p lp f g d E0 E1 dt0 dt1 c t, names p -> fs (p_file p) = Some f -> complete f g d ->
  field_of lfs lp 0 = Some (E0, dt0) -> field_of lfs lp 1 = Some (E1, dt1) ->
  (ram_start F lfs fs p lp c t = Throw <-> ~ (suits c (E0, dt0) /\ suits c (E1, dt1))).
Proof.
  intros F lfs fs p lp f g d E0 E1 dt0 dt1 c t N Ef C L0 L1. split.
  - intros H [S0 S1]. destruct (start_ok F lfs fs p lp f g d E0 E1 dt0 dt1 c N Ef C L0 L1 t S0 S1) as (R & E & _). rewrite E in H. discriminate H.
  - exact (start_refused F lfs fs p lp f g d E0 E1 dt0 dt1 c N Ef C L0 L1 t).
Qed.
Print Assumptions C96_refused.
Example C96_refused_ex : ~ (suits (@mkClk Qco (Q2Qc 1) 3 0) ([Q2Qc 3; Q2Qc (-5)], Q2Qc 1) /\ suits (@mkClk Qco (Q2Qc 1) 3 0) ([Q2Qc 2; Q2Qc 7], Q2Qc 1)) /\
  field_of disk (mkNL (fun _ => None) None) 1 = None /\ r_init (@new_ram Qco) = false /\ length (r_ls (@new_ram Qco)) = 2%nat.
Proof. split; [|repeat split]. intros [[_ S] _]. change (3 <= 2) in S. lia. Qed.

(** ** the two lasers can be exchanged *)
Theorem C96_exchange : forall (F : ofld) V a b i c psi x, ram_apply (@mkRam F V [a; b] i c) psi = Ok x <-> ram_apply (@mkRam F V [b; a] i c) psi = Ok x.
Proof.
  intros F. assert (X : forall V a b i c psi x, ram_apply (@mkRam F V [a; b] i c) psi = Ok x -> ram_apply (@mkRam F V [b; a] i c) psi = Ok x).
  { intros V a b i c psi x. unfold ram_apply, laser_now. cbn [r_ls nth_error r_clk r_pot]. destruct c as [c|]; [|discriminate].
    destruct (lsr_get a c) as [u| |]; [|discriminate|destruct (lsr_get b c); discriminate]. cbn [bind]. destruct (lsr_get b c) as [v| |]; [|discriminate|discriminate]. cbn [bind].
    intros H. rewrite <- H. destruct (zlen psi =? zlen (po_data V)); [|reflexivity]. destruct u as [u|], v as [v|]; try reflexivity. cbn [omul option_map].
    do 2 f_equal. f_equal. apply exchange. }
  intros. split; apply X.
Qed.
Print Assumptions C96_exchange.

(** ** the exponential is that of the coupling: the exponents are the factor times what applying multiplies with *)
Definition C96_exponential : Prop := forall (F : ofld) (R : ram F) a psi r x j w c z, ram_apply R psi = Ok (Some r) -> ram_exponents R a = Ok (Some x) ->
  nth_error psi j = Some c -> nth_error r j = Some (cx_scale w c) -> c = c1 -> nth_error x j = Some z -> z = cmul a (cx_of w).
(** they are twice that: those of - E1 alpha E2 *)
Theorem C96_exponential_code : forall (F : ofld) (R : ram F) a e0 e1, laser_now R 0 = Ok (Some e0) -> laser_now R 1 = Ok (Some e1) ->
  exists x, ram_exponents R a = Ok (Some x) /\ length x = length (po_data (r_pot R)) /\
  forall j m, nth_error (po_data (r_pot R)) j = Some m -> nth_error x j = Some (cmul a (cx_of (copp (cmul (cmul e0 m) e1)))).
Proof. exact exponents_ok. Qed.
Print Assumptions C96_exponential_code.
Definition lit_up : ram Qco := @mkRam Qco (@mkPot Qco (no_pars Qco) pt1 [Q2Qc 1] false)
  [@mkLsr Qco [Some (Q2Qc 3)] (Q2Qc 1) (Q2Qc 1) true; @mkLsr Qco [Some (Q2Qc 2)] (Q2Qc 1) (Q2Qc 2) true] true (Some (@mkClk Qco (Q2Qc 1) 1 0)).
Theorem C96_exponential_refuted : ~ C96_exponential.
Proof.
  intros H. pose proof (fun z => H Qco lit_up c1 [c1] _ _ 0%nat (Q2Qc (-6)) c1 z eq_refl eq_refl eq_refl) as K. clear H.
  assert (X : nth_error (mult (map (fun m : Qco => cmul m (cmul (cmul (copp (fdiv c1 (cadd c1 c1))) (cmul (Q2Qc 3 : Qco) (Q2Qc 1))) (cmul (Q2Qc 2 : Qco) (Q2Qc 2)))) [Q2Qc 1]) [c1 : Cx Qco]) 0 = Some (cx_scale (Q2Qc (-6) : Qco) c1)).
  { cbn [mult map nth_error]. f_equal. }
  pose proof (K _ X eq_refl eq_refl) as H. apply (f_equal (fun z => Qcanon.this (fst z))) in H. vm_compute in H. discriminate H.
Qed.
Print Assumptions C96_exponential_refuted.
(** so half the factor gives the exponential of the coupling *)
Theorem C96_exponential_partial : forall (F : ofld) (R : ram F) a e0 e1 psi, laser_now R 0 = Ok (Some e0) -> laser_now R 1 = Ok (Some e1) -> length psi = length (po_data (r_pot R)) ->
  exists x r, ram_exponents R (cmul (cx_of half) a) = Ok (Some x) /\ ram_apply R psi = Ok (Some r) /\
  forall j m c, nth_error (po_data (r_pot R)) j = Some m -> nth_error psi j = Some c -> exists w, nth_error r j = Some (cx_scale w c) /\ nth_error x j = Some (cmul a (cx_of w)).
Proof.
  intros F R a e0 e1 psi H0 H1 L. destruct (exponents_ok F R (cmul (cx_of half) a) e0 e1 H0 H1) as (x & A & _ & B). destruct (apply_raman F R psi e0 e1 H0 H1 L) as (r & C & _ & D).
  exists x, r. split; [exact A|]. split; [exact C|]. intros j m c Hm Hc. eexists. split; [exact (D j m c Hm Hc)|]. rewrite (B j m Hm). f_equal. apply half_move.
Qed.
Print Assumptions C96_exponential_partial.
Example C96_exponential_ex : exists e0 e1, laser_now lit_up 0 = Ok (Some e0) /\ laser_now lit_up 1 = Ok (Some e1).
Proof. eexists. eexists. split; reflexivity. Qed.

(** ** the energy of a wave function is between Emin and Emax *)
Definition C96_bounds : Prop := forall (F : ofld) (R : ram F) l0 l1 E0 E1 psi r, r_ls R = [l0; l1] -> laser_in F l0 E0 -> laser_in F l1 E1 ->
  (forall m, In m (po_data (r_pot R)) -> ole c0 m) -> po_data (r_pot R) <> [] -> norm2 psi = c1 -> ram_apply R psi = Ok (Some r) ->
  exists M, ram_emax R = Ok (Some M) /\ ole (ram_emin R) (fst (braket psi r)) /\ ole (fst (braket psi r)) M.
(** without negative values, and with lasers scaled by at most one, it is between - Emax and Emin *)
Theorem C96_bounds_code : forall (F : ofld) (R : ram F) l0 l1 E0 E1 psi r, r_ls R = [l0; l1] -> laser_in F l0 E0 -> laser_in F l1 E1 ->
  (forall m, In m (po_data (r_pot R)) -> ole c0 m) -> po_data (r_pot R) <> [] -> ram_apply R psi = Ok (Some r) ->
  exists M, ram_emax R = Ok (Some M) /\ ole (cmul (copp M) (norm2 psi)) (fst (braket psi r)) /\ ole (fst (braket psi r)) (ram_emin R).
Proof. exact raman_bounds. Qed.
Print Assumptions C96_bounds_code.
Definition two_one : ram Qco := @mkRam Qco (@mkPot Qco (no_pars Qco) pt1 [Q2Qc 1] false)
  [@mkLsr Qco [Some (Q2Qc 3)] (Q2Qc 1) (Q2Qc 1) true; @mkLsr Qco [Some (Q2Qc 2)] (Q2Qc 1) (Q2Qc 1) true] true (Some (@mkClk Qco (Q2Qc 1) 1 0)).
Lemma one_in (x : Qco) : olt c0 x -> laser_in Qco (@mkLsr Qco [Some x] (Q2Qc 1) (Q2Qc 1) true) [x].
Proof. intros H. split; [reflexivity|]. split; [intros y [<-|[]]; left; exact H|]. split; [left; reflexivity|right; reflexivity]. Qed.
Theorem C96_bounds_refuted : ~ C96_bounds.
Proof.
  intros H. pose proof (fun a b n => H Qco two_one _ _ [Q2Qc 3] [Q2Qc 2] [c1] _ eq_refl (one_in (Q2Qc 3) eq_refl) (one_in (Q2Qc 2) eq_refl) a b n eq_refl) as K. clear H.
  destruct K as (M & _ & [X|X] & _).
  - intros m [<-|[]]. left. reflexivity.
  - discriminate.
  - apply Qc_is_canon. vm_compute. reflexivity.
  - unfold olt in X. vm_compute in X. discriminate X.
  - apply (f_equal Qcanon.this) in X. vm_compute in X. discriminate X.
Qed.
Print Assumptions C96_bounds_refuted.

(** ** copies act as the original, at every step *)
Definition C96_copy : Prop := forall (F : ofld) (o : ram F) t psi, length (r_ls o) = 2%nat -> ram_apply (ram_tick (ram_copy new_ram o) t) psi = ram_apply (ram_tick o t) psi.
(** the scales of the lasers are lost *)
Theorem C96_copy_partial : forall (F : ofld) (K o : ram F) t psi, map ls_scale (r_ls K) = map ls_scale (r_ls o) ->
  ram_apply (ram_tick (ram_copy K o) t) psi = ram_apply (ram_tick o t) psi.
Proof.
  intros F K o t psi S. unfold ram_apply, ram_tick, ram_copy, laser_now. cbn [r_ls r_clk r_pot pot_copy po_data].
  replace (map (fun x => lsr_assign (fst x) (snd x)) (combine (r_ls K) (r_ls o))) with (r_ls o); [reflexivity|].
  revert S. generalize (r_ls o) as l. induction (r_ls K) as [|a k IH]; intros [|b l] S; try discriminate S; [reflexivity|]. cbn [map combine fst snd]. injection S as S0 S.
  rewrite <- (IH l S). f_equal. destruct b as [bd bt bs bc]. unfold lsr_assign. cbn [ls_data ls_dt ls_scale ls_clock] in *. rewrite S0. reflexivity.
Qed.
Print Assumptions C96_copy_partial.
Theorem C96_copy_refuted : ~ C96_copy.
Proof.
  intros H. specialize (H Qco lit_up 0 [c1] eq_refl).
  assert (X : option_map (map (fun z : Qc * Qc => Qcanon.this (fst z))) (match ram_apply (ram_tick (ram_copy new_ram lit_up) 0) [c1] with Ok r => r | _ => None end)
    = option_map (map (fun z : Qc * Qc => Qcanon.this (fst z))) (match ram_apply (ram_tick lit_up 0) [c1] with Ok r => r | _ => None end)) by (rewrite H; reflexivity).
  vm_compute in X. discriminate X.
Qed.
Print Assumptions C96_copy_refuted.
Example C96_copy_ex : map ls_scale (r_ls (@new_ram Qco)) = map ls_scale (r_ls two_one).
Proof. reflexivity. Qed.

(** ** initialising again keeps the fields that were read first, whatever is asked for *)
Theorem C96_again : forall (F : ofld) lfs fs (o : ram F) p lp, r_init o = true -> r_ls (fst (ram_init F lfs fs o p lp)) = r_ls o /\ r_init (fst (ram_init F lfs fs o p lp)) = true.
Proof. intros F lfs fs o p lp I. unfold ram_init. rewrite I. destruct (pot_init _ _ _ _ _) as [V r]. split; reflexivity. Qed.
Print Assumptions C96_again.
Example C96_again_ex : r_init lit_up = true /\ length (r_ls lit_up) = 2%nat.
Proof. split; reflexivity. Qed.
