(** C89: the dipole coupling to a laser *)
From Coq Require Import Reals.
From Coq Require Import Ascii String List ZArith Lia Bool Arith QArith Qcanon.
From Verif Require Import Base Arrays Algebra Complex Ordered RealField Model.Potential Spec.Potential Proofs.Potential Model.Dipole Spec.Dipole Proofs.Dipole.
Import ListNotations.
Open Scope Z_scope.

(** [moment p s d]: the stored dipole plus the offset, times s; [coupled mu e psi r]: r is - mu e psi at every grid point;
    [suits c l]: the laser file l has the step of the clock c and enough samples; [dip_start p lp c t]: Init, Clock, step t *)

(** ** the coupling is - scale (mu + offset) E(t) at step t *)
Definition C89_coupling : Prop := forall (F : ofld) fexp fcos emax0 w00 lfs fs p lp f g d n E dt c t e psi,
  names p -> fs (p_file p) = Some f -> complete f g d ->
  lp_laser lp = Some n -> lfs n = Some (E, dt) -> suits c (E, dt) -> 0 <= t -> nth_error E (Z.to_nat t) = Some e -> length psi = length d ->
  exists D r, dip_start F fexp fcos emax0 w00 lfs fs p lp c t = Ok D /\ dip_apply D psi = Ok (Some r) /\ coupled (moment p (scale_of p) d) e psi r.
(** the laser is scaled again: by the scale of the parameters the operator has after reading, which are those of the meta file,
    or, for a stream, its own *)
Theorem C89_coupling_code : forall (F : ofld) fexp fcos emax0 w00 lfs fs p lp f g d n E dt c t e psi,
  names p -> fs (p_file p) = Some f -> complete f g d ->
  lp_laser lp = Some n -> lfs n = Some (E, dt) -> suits c (E, dt) -> 0 <= t -> nth_error E (Z.to_nat t) = Some e -> length psi = length d ->
  exists D r, dip_start F fexp fcos emax0 w00 lfs fs p lp c t = Ok D /\ dip_apply D psi = Ok (Some r) /\
    coupled (moment p (cmul (scale_of p) (file_scale f p)) d) e psi r.
Proof. exact coupling_code. Qed.
Print Assumptions C89_coupling_code.
Definition pt1 : list (axis Qco) := [@mkAx Qco 1 (Q2Qc 0) (Q2Qc 1)].
Definition ask2 : pars Qco := @mkPars Qco 0 (lit "mu") false (Q2Qc 0) (Some (Q2Qc 2)) [].
Definition beam : lpars Qco := @mkLP Qco (Some (lit "E")) None.
Definition beams (_ : str) : option (list Qco * Qco) := Some ([Q2Qc 3; Q2Qc (-5)], Q2Qc 1).
Definition tick1 : clk Qco := @mkClk Qco (Q2Qc 1) 2 0.
Definition unit_mu (_ : str) : option (file Qco) := Some (@Strm Qco pt1 [Q2Qc 1]).
Lemma pt1_complete (d : list Qco) : length d = 1%nat -> complete (@Strm Qco pt1 d) pt1 d.
Proof. intros L. split; [constructor|]. split; [split; [cbn; lia|intros a [<-|[]]; split; [cbn; lia|reflexivity]]|]. unfold zlen. rewrite L. reflexivity. Qed.
Theorem C89_coupling_refuted : ~ C89_coupling.
Proof.
  intros H. destruct (H Qco (fun _ => c1) (fun _ => c1) c1 c1 beams unit_mu ask2 beam (@Strm Qco pt1 [Q2Qc 1]) pt1 [Q2Qc 1] (lit "E") [Q2Qc 3; Q2Qc (-5)] (Q2Qc 1) tick1 0 (Q2Qc 3) [c1])
    as (D & r & ED & AD & CD); try reflexivity; [split; [cbn; lia|discriminate]|apply pt1_complete; reflexivity|split; [reflexivity|change (2 <= 2); lia]|].
  destruct (coupling_code Qco (fun _ => c1) (fun _ => c1) c1 c1 beams unit_mu ask2 beam (@Strm Qco pt1 [Q2Qc 1]) pt1 [Q2Qc 1] (lit "E") [Q2Qc 3; Q2Qc (-5)] (Q2Qc 1) tick1 0 (Q2Qc 3) [c1])
    as (D' & r' & ED' & AD' & CD'); try reflexivity; [split; [cbn; lia|discriminate]|apply pt1_complete; reflexivity|split; [reflexivity|change (2 <= 2); lia]|].
  rewrite ED in ED'. injection ED' as <-. rewrite AD in AD'. injection AD' as <-.
  destruct CD as [_ CD]. destruct CD' as [_ CD']. specialize (CD 0%nat _ _ eq_refl eq_refl). specialize (CD' 0%nat _ _ eq_refl eq_refl).
  rewrite CD in CD'. injection CD' as X. discriminate X.
Qed.
Print Assumptions C89_coupling_refuted.
(** true without a scale, and with a scale for files with a meta file that has none *)
Theorem C89_coupling_partial : forall (F : ofld) fexp fcos emax0 w00 lfs fs p lp f g d n E dt c t e psi,
  names p -> fs (p_file p) = Some f -> complete f g d -> file_scale f p = c1 ->
  lp_laser lp = Some n -> lfs n = Some (E, dt) -> suits c (E, dt) -> 0 <= t -> nth_error E (Z.to_nat t) = Some e -> length psi = length d ->
  exists D r, dip_start F fexp fcos emax0 w00 lfs fs p lp c t = Ok D /\ dip_apply D psi = Ok (Some r) /\ coupled (moment p (scale_of p) d) e psi r.
Proof.
  intros F fexp fcos emax0 w00 lfs fs p lp f g d n E dt c t e psi N Ef C S L Lf Su T He Lp.
  destruct (coupling_code F fexp fcos emax0 w00 lfs fs p lp f g d n E dt c t e psi N Ef C L Lf Su T He Lp) as (D & r & ED & AD & CD).
  exists D, r. split; [exact ED|]. split; [exact AD|]. rewrite S in CD. replace (cmul (scale_of p) c1) with (scale_of p) in CD; [exact CD|].
  rewrite (Ring_theory.Rmul_comm (cr_th F)), (Ring_theory.Rmul_1_l (cr_th F)). reflexivity.
Qed.
Print Assumptions C89_coupling_partial.
Example C89_coupling_ex : names ask2 /\ complete (@Strm Qco pt1 [Q2Qc 1]) pt1 [Q2Qc 1] /\ suits tick1 ([Q2Qc 3; Q2Qc (-5)], Q2Qc 1).
Proof. split; [split; [cbn; lia|discriminate]|]. split; [apply pt1_complete; reflexivity|]. split; [reflexivity|change (2 <= 2); lia]. Qed.

(** ** a laser that does not fit the clock, or none, is refused *)
Theorem C89_refused : forall (F : ofld) fexp fcos emax0 w00 lfs fs p lp c t,
  (lp_laser lp = None /\ lp_gen lp = None) \/ (exists n, lp_laser lp = Some n /\ lfs n = None) \/ (lp_laser lp = None /\ lp_gen lp = Some Other) \/
  (exists n E dt f g d, lp_laser lp = Some n /\ lfs n = Some (E, dt) /\ (dt <> k_dt c \/ zlen E < k_steps c) /\
     names p /\ fs (p_file p) = Some f /\ complete f g d) ->
  dip_start F fexp fcos emax0 w00 lfs fs p lp c t = Throw.
Proof.
  intros F fexp fcos emax0 w00 lfs fs p lp c t H. unfold dip_start, dip_init. cbn [new_dip d_init d_ol d_pot d_clk]. unfold ol_init.
  destruct H as [[L G]|[(n & L & X)|[[L G]|(n & E & dt & f & g & d & L & X & M & N & Ef & C)]]].
  - rewrite L, G. reflexivity.
  - rewrite L, X. reflexivity.
  - rewrite L, G. reflexivity.
  - rewrite L, X. destruct (dip_load F fs new_pot p f g d eq_refl N Ef C) as (V & -> & _).
    unfold dip_clock, ol_clock, lsr_clock. cbn [d_ol ol_gen ol_laser ls_data ls_dt ls_scale ls_clock d_pot new_ol new_lsr].
    replace (negb (same (k_dt c) dt) || (zlen (map Some E) <? k_steps c)) with true; [reflexivity|].
    symmetry. apply orb_true_iff. destruct M as [M|M].
    + left. rewrite same_neq; [reflexivity|congruence].
    + right. unfold zlen in *. rewrite map_length. lia.
Qed.
Print Assumptions C89_refused.

(** ** energies: at every step the absolute value of the energy is at most Emax *)
Definition C89_bounds : Prop := forall (F : ofld) (D : dip F) E c e psi r, d_clk D = Some c -> ls_data (ol_laser (d_ol D)) = map Some E ->
  ls_scale (ol_laser (d_ol D)) = c1 -> po_data (d_pot D) <> [] -> field D = Ok e -> dip_apply D psi = Ok (Some r) ->
  exists M, dip_emax D = Ok (Some M) /\ within (cmul M (norm2 psi)) (fst (braket psi r)).
Definition weak : dip Qco :=
  @mkDip Qco (@mkPot Qco (no_pars Qco) pt1 [Q2Qc 1] false) (@mkOL Qco (@mkLsr Qco [Some (Q2Qc 3); Some (Q2Qc (-5))] (Q2Qc 1) (Q2Qc 1) true) None) true
    (Some (@mkClk Qco (Q2Qc 1) 2 1)).
(** the largest, not the largest absolute value of field and dipole is taken *)
Theorem C89_bounds_refuted : ~ C89_bounds.
Proof.
  intros H. destruct (apply_field Qco weak [c1] (Q2Qc (-5) * 1)%Qc eq_refl eq_refl) as (r & A & L & C).
  destruct (H Qco weak [Q2Qc 3; Q2Qc (-5)] (@mkClk Qco (Q2Qc 1) 2 1) (Some (Q2Qc (-5) * 1)%Qc) [c1] r eq_refl eq_refl eq_refl) as (M & EM & _ & W);
    [discriminate|reflexivity|exact A|].
  unfold dip_apply in A. cbn in A. injection A as <-.
  assert (HM : M = Q2Qc 3). { cbn in EM. injection EM as <-. apply Qc_is_canon. reflexivity. }
  rewrite HM in W. destruct W as [W|W].
  - unfold olt in W. vm_compute in W. discriminate W.
  - apply (f_equal Qcanon.this) in W. vm_compute in W. discriminate W.
Qed.
Print Assumptions C89_bounds_refuted.
(** true when neither field nor dipole is ever negative *)
Theorem C89_bounds_partial : forall (F : ofld) (D : dip F) E c e psi r, d_clk D = Some c -> ls_data (ol_laser (d_ol D)) = map Some E ->
  (forall m, In m (po_data (d_pot D)) -> ole c0 m) -> (forall x, In x E -> ole c0 x) ->
  ole c0 (ls_scale (ol_laser (d_ol D))) -> ole (ls_scale (ol_laser (d_ol D))) c1 -> po_data (d_pot D) <> [] ->
  field D = Ok e -> dip_apply D psi = Ok (Some r) ->
  exists M, dip_emax D = Ok (Some M) /\ within (cmul M (norm2 psi)) (fst (braket psi r)).
Proof. exact (fun F => bounds_ok F (fun x => x) (fun x => x)). Qed.
Print Assumptions C89_bounds_partial.
Example C89_bounds_ex : field weak = Ok (Some (Q2Qc (-5))) /\ exists r, dip_apply weak [c1] = Ok (Some r).
Proof.
  split; [|eexists; reflexivity]. change (field weak) with (Ok (Some (Q2Qc (-5) * Q2Qc 1)%Qc)). apply (f_equal (fun x => Ok (Some x))), Qc_is_canon. reflexivity.
Qed.

(** ** the exponential is that of the coupling: the exponents are the factor times - mu E *)
Theorem C89_exponential : forall (F : ofld) (D : dip F) a e, field D = Ok (Some e) ->
  exists x, dip_exponents D a = Ok (Some x) /\ length x = length (po_data (d_pot D)) /\
  forall j m, nth_error (po_data (d_pot D)) j = Some m -> nth_error x j = Some (cmul a (cx_of (copp (cmul m e)))).
Proof.
  intros F D a e H. unfold dip_exponents. rewrite H. cbn [bind option_map]. eexists. split; [reflexivity|]. split; [apply map_length|].
  intros j m Hm. rewrite (map_nth_error _ j _ Hm). f_equal. exact (exponent_eq F a m e).
Qed.
Print Assumptions C89_exponential.

(** ** Init again *)
(** Init with another laser uses that laser *)
Definition C89_again : Prop := forall (F : ofld) lfs fs (D D1 : dip F) p lp n E dt, po_init (d_pot D) = false ->
  lp_laser lp = Some n -> lfs n = Some (E, dt) -> dip_init F lfs fs D p lp = (D1, Ok tt) -> ls_data (ol_laser (d_ol D1)) = map Some E.
Theorem C89_again_code : forall (F : ofld) lfs fs (D : dip F) p lp, d_init D = true -> d_ol (fst (dip_init F lfs fs D p lp)) = d_ol D.
Proof.
  intros F lfs fs D p lp I. unfold dip_init. rewrite I. destruct (pot_init F fs dip_emin (d_pot D) p) as [V r]. reflexivity.
Qed.
Print Assumptions C89_again_code.
Definition blank : dip Qco := @mkDip Qco new_pot new_ol true None.
Theorem C89_again_refuted : ~ C89_again.
Proof.
  intros H. destruct (dip_load Qco unit_mu new_pot ask2 (@Strm Qco pt1 [Q2Qc 1]) pt1 [Q2Qc 1]) as (V & EV & _);
    [reflexivity|split; [cbn; lia|discriminate]|reflexivity|apply pt1_complete; reflexivity|].
  assert (E : dip_init Qco beams unit_mu blank ask2 beam = (@mkDip Qco V new_ol true None, Ok tt)).
  { unfold dip_init, blank. cbn [d_init d_pot d_ol d_clk]. rewrite EV. reflexivity. }
  exact (nil_cons (H Qco beams unit_mu blank _ ask2 beam (lit "E") [Q2Qc 3; Q2Qc (-5)] (Q2Qc 1) eq_refl eq_refl eq_refl E)).
Qed.
Print Assumptions C89_again_refuted.
(** a laser that could not be read can be tried again *)
Theorem C89_retry_partial : forall (F : ofld) lfs fs (D D1 : dip F) p lp lp' n E dt, d_init D = false -> fst (ol_init F lfs (d_ol D) lp) = d_ol D ->
  snd (ol_init F lfs (d_ol D) lp) = Throw -> dip_init F lfs fs D p lp = (D1, Throw) -> lp_laser lp' = Some n -> lfs n = Some (E, dt) ->
  ls_data (ol_laser (d_ol (fst (dip_init F lfs fs D1 p lp')))) = map Some E.
Proof.
  intros F lfs fs D D1 p lp lp' n E dt I K R H L X. unfold dip_init in H. rewrite I in H.
  destruct (ol_init F lfs (d_ol D) lp) as [o r]. cbn [fst snd] in *. subst o r. injection H as <-.
  unfold dip_init. cbn [d_init]. unfold ol_init. rewrite L, X. cbn [d_ol d_pot d_clk].
  destruct (pot_init F fs dip_emin (d_pot D) p) as [V r]. reflexivity.
Qed.
Print Assumptions C89_retry_partial.

(** ** copies act as the original, at every step *)
Definition C89_copy : Prop := forall (F : ofld) (o : dip F) t psi, dip_apply (dip_tick (dip_copy new_dip o) t) psi = dip_apply (dip_tick o t) psi.
(** the scale of the laser is lost *)
Theorem C89_copy_code : forall (F : ofld) (K o : dip F) t c x, d_clk o = Some c -> ls_clock (ol_laser (d_ol o)) = true ->
  rd (ls_data (ol_laser (d_ol o))) t = Ok x ->
  field (dip_tick o t) = Ok (option_map (fun x => cmul x (ls_scale (ol_laser (d_ol o)))) x) /\
  field (dip_tick (dip_copy K o) t) = Ok (option_map (fun x => cmul x (ls_scale (ol_laser (d_ol K)))) x).
Proof.
  intros F K o t c x HC HK HX. unfold field, dip_tick, dip_copy, lsr_get. cbn [d_clk d_ol ol_laser lsr_assign ls_clock ls_data ls_scale].
  rewrite HC. cbn [option_map k_step]. rewrite HK, HX. split; reflexivity.
Qed.
Print Assumptions C89_copy_code.
Definition scaled : dip Qco :=
  @mkDip Qco (@mkPot Qco (no_pars Qco) pt1 [Q2Qc 1] false) (@mkOL Qco (@mkLsr Qco [Some (Q2Qc 3)] (Q2Qc 1) (Q2Qc 2) true) None) true
    (Some (@mkClk Qco (Q2Qc 1) 1 0)).
Theorem C89_copy_refuted : ~ C89_copy.
Proof.
  intros H. specialize (H Qco scaled 0 [c1]). 
  assert (X : option_map (map (fun z : Qc * Qc => Qcanon.this (fst z))) (match dip_apply (dip_tick (dip_copy new_dip scaled) 0) [c1] with Ok r => r | _ => None end)
    = option_map (map (fun z : Qc * Qc => Qcanon.this (fst z))) (match dip_apply (dip_tick scaled 0) [c1] with Ok r => r | _ => None end)) by (rewrite H; reflexivity).
  vm_compute in X. discriminate X.
Qed.
Print Assumptions C89_copy_refuted.
(** true if the lasers have the same scale *)
Theorem C89_copy_partial : forall (F : ofld) (K o : dip F) t psi, ls_scale (ol_laser (d_ol K)) = ls_scale (ol_laser (d_ol o)) ->
  dip_apply (dip_tick (dip_copy K o) t) psi = dip_apply (dip_tick o t) psi.
Proof.
  intros F K o t psi S. unfold dip_apply, field, dip_tick, dip_copy, lsr_get. cbn [d_clk d_ol d_pot ol_laser lsr_assign ls_clock ls_data ls_scale pot_copy po_data].
  rewrite S. reflexivity.
Qed.
Print Assumptions C89_copy_partial.
(** the parameters of a pulse are not copied: a copy made before Clock has no field, Clock refuses it *)
Theorem C89_copy_pulse_code : forall (F : ofld) fexp fcos emax0 w00 (o : dip F) c, ls_data (ol_laser (d_ol o)) = [] -> 0 < k_steps c ->
  snd (dip_clock F fexp fcos emax0 w00 (dip_copy new_dip o) c) = Throw.
Proof.
  intros F fexp fcos emax0 w00 o c L S. unfold dip_clock, ol_clock, lsr_clock, dip_copy. cbn [d_ol ol_gen new_dip new_ol ol_laser lsr_assign ls_data ls_dt].
  rewrite L. change (zlen []) with 0. replace (0 <? k_steps c) with true by lia. rewrite orb_true_r. reflexivity.
Qed.
Print Assumptions C89_copy_pulse_code.

(** ** generated pulses; [pulse_laws]: 0 <= exp x <= exp 0 = 1 for x <= 0, cos is even and between -1 and 1 *)
Example C89_laws_ex : @pulse_laws Ro Rtrigo_def.exp Rtrigo_def.cos.
Proof.
  constructor; cbn.
  - exact exp_0.
  - intros x H. split; [left; apply exp_pos|]. destruct H as [H|H]; [left; rewrite <- exp_0; apply exp_increasing, H|right; rewrite H; apply exp_0].
  - intros x. pose proof (COS_bound x) as [A B]. split; [destruct A as [A|A]; [left; exact A|right; exact A]|destruct B as [B|B]; [left; exact B|right; exact B]].
  - exact cos_neg.
Qed.
(** the samples of a pulse are numbers, not larger than its height *)
Definition C89_pulse : Prop := forall (F : ofld) fexp fcos emax0 w00, pulse_laws fexp fcos -> forall c p i,
  ole c0 (height emax0 p) -> u_sigma p <> Some c0 -> k_dt c <> c0 -> 0 < k_steps c ->
  exists x, sample F fexp fcos emax0 w00 c p i = Some x /\ within (height emax0 p) x.
(** with fewer than eight steps the default width is zero, and the field not a number *)
Theorem C89_pulse_code : forall (F : ofld) fexp fcos emax0 w00 c p, u_sigma p = None -> u_t0 p = None -> 0 <= k_steps c < 8 ->
  sample F fexp fcos emax0 w00 c p (Z.quot (k_steps c) 2) = None.
Proof.
  intros F fexp fcos emax0 w00 c p S T H. apply sample_nan.
  - unfold width. rewrite S. rewrite Z.quot_small by lia. rewrite ofZ_0. apply (zero_mul F).
  - unfold centre. rewrite T. reflexivity.
Qed.
Print Assumptions C89_pulse_code.
Definition bare : pulse Qco := @mkPulse Qco None None None None None None.
Theorem C89_pulse_refuted : ~ C89_pulse.
Proof.
  intros H. destruct (H Qco (fun _ => c1) (fun _ => c1) c1 c1) with (c := @mkClk Qco (Q2Qc 1) 4 0) (p := bare) (i := 2) as (x & E & _).
  - constructor; cbn; [reflexivity|intros _ _; split; [left; reflexivity|right; reflexivity]|intros _; split; [left; reflexivity|right; reflexivity]|reflexivity].
  - left. reflexivity.
  - discriminate.
  - discriminate.
  - reflexivity.
  - pose proof (C89_pulse_code Qco (fun _ => c1) (fun _ => c1) c1 c1 (@mkClk Qco (Q2Qc 1) 4 0) bare eq_refl eq_refl) as N.
    specialize (N (conj (Pos2Z.is_nonneg 4) eq_refl)). pose proof (eq_trans (eq_sym N) E) as X. discriminate X.
Qed.
Print Assumptions C89_pulse_refuted.
(** true whenever the width is not zero; the pulse has its height at the centre, and is symmetric there without phase and chirp *)
Theorem C89_pulse_partial : forall (F : ofld) fexp fcos emax0 w00, pulse_laws fexp fcos -> forall c p i, width c p <> c0 ->
  (ole c0 (height emax0 p) -> exists x, sample F fexp fcos emax0 w00 c p i = Some x /\ within (height emax0 p) x) /\
  (cmul (ofZ i) (k_dt c) = centre c p -> sample F fexp fcos emax0 w00 c p i = Some (cmul (height emax0 p) (fcos (dflt F (u_phi p) c0)))) /\
  (forall j, dflt F (u_phi p) c0 = c0 -> dflt F (u_b p) c0 = c0 ->
     csub (cmul (ofZ i) (k_dt c)) (centre c p) = csub (centre c p) (cmul (ofZ j) (k_dt c)) ->
     sample F fexp fcos emax0 w00 c p i = sample F fexp fcos emax0 w00 c p j).
Proof.
  intros F fexp fcos emax0 w00 L c p i W. split; [|split].
  - intros H. exact (sample_bound F fexp fcos emax0 w00 L c p i H W).
  - intros H. exact (sample_peak F fexp fcos emax0 w00 L c p i W H).
  - intros j P B H. exact (sample_sym F fexp fcos emax0 w00 L c p i j P B H).
Qed.
Print Assumptions C89_pulse_partial.
(** the field of an operator with a pulse: its samples, two pulses are added *)
Theorem C89_field : forall (F : ofld) fexp fcos emax0 w00 (D : dip F) c t g, ol_gen (d_ol D) = Some g -> g <> Other -> 0 <= t < k_steps c ->
  exists D1, dip_clock F fexp fcos emax0 w00 D c = (D1, Ok tt) /\
  field (dip_tick D1 t) = Ok (option_map (fun x => cmul x (match p_scale (po_par (d_pot D)) with Some s => s | None => ls_scale (ol_laser (d_ol D)) end))
    (match g with Gauss p => sample F fexp fcos emax0 w00 c p t
     | Gauss2 p q => oadd F (sample F fexp fcos emax0 w00 c p t) (sample F fexp fcos emax0 w00 c q t) | Other => None end)).
Proof.
  intros F fexp fcos emax0 w00 D c t g G N H. unfold dip_clock, ol_clock. rewrite G.
  destruct g as [p|p q|]; [| |contradiction]; (eexists; split; [reflexivity|]); unfold field, dip_tick, lsr_get; cbn [d_clk option_map d_ol ol_laser k_step];
    (destruct (p_scale (po_par (d_pot D))); cbn [ls_clock ls_data ls_scale]; unfold samples;
     rewrite rd_map, rd_upto by lia; reflexivity).
Qed.
Print Assumptions C89_field.
Example C89_width_ex : width (@mkClk Qco (Q2Qc 1) 16 0) bare <> c0 /\ ole c0 (height (F := Qco) (Q2Qc (1 # 10000)) bare).
Proof.
  split; [|left; reflexivity]. intros X. apply (f_equal Qcanon.this) in X. vm_compute in X. discriminate X.
Qed.
