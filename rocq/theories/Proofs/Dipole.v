(** Proofs about dipole couplings (C89). *)
From Coq Require Import Ascii String List ZArith Lia Bool Arith Field.
From Verif Require Import Base Arrays Algebra Complex Ordered Model.Potential Spec.Potential Proofs.Potential Model.Dipole Spec.Dipole.
Import ListNotations.
Open Scope Z_scope.

Section Proofs.
  Variable F : ofld.
  Add Ring DFr : (cr_th F).
  Add Field DFf : (f_th F).
  Variables (fexp fcos : F -> F) (emax0 w00 : F).
  Variable lfs : str -> option (list F * F).
  Variable fs : str -> option (file F).
  Open Scope cr_scope.

  (** a complete file, loaded by a dipole: "setzero" has no effect *)
  Lemma dip_load (V : pot F) p f g d : po_init V = false -> names p -> fs (p_file p) = Some f -> complete f g d ->
    exists V', pot_init F fs dip_emin V p = (V', Ok tt) /\ po_grid V' = g /\ po_init V' = false /\
      po_data V' = moment p (scale_of p) d /\ po_par V' = match f with Raw h _ => h | Strm _ _ => p end.
  Proof.
    intros I N E C. rewrite (names_branch F fs dip_emin V p I N).
    destruct (read_ok F fs (set_init F (set_par F V p) true) _ f g d E C) as (V1 & E1 & G1 & D1 & _ & P1). rewrite E1.
    replace (if p_setzero p then dip_emin (po_data V1) else Ok c0) with (Ok (c0 : F)) by (destruct (p_setzero p); reflexivity).
    eexists. split; [reflexivity|]. cbn [po_grid set_init set_data po_init po_data po_par]. split; [exact G1|]. split; [reflexivity|].
    split; [|exact P1]. rewrite D1, (shift_map F p 0 d) by reflexivity. apply map_ext. intros x. unfold scale_of. ring.
  Qed.

  Lemma start_ok p lp f g d n E dt c t : names p -> fs (p_file p) = Some f -> complete f g d ->
    lp_laser lp = Some n -> lfs n = Some (E, dt) -> suits c (E, dt) ->
    exists D, dip_start F fexp fcos emax0 w00 lfs fs p lp c t = Ok D /\ po_data (d_pot D) = moment p (scale_of p) d /\
      po_grid (d_pot D) = g /\ ls_data (ol_laser (d_ol D)) = map Some E /\ ls_scale (ol_laser (d_ol D)) = file_scale f p /\
      ls_clock (ol_laser (d_ol D)) = true /\ d_clk D = Some (mkClk (k_dt c) (k_steps c) t) /\ d_init D = true.
  Proof.
    intros N Ef C L Lf [S1 S2]. cbn [fst snd] in *. unfold dip_start, dip_init. cbn [new_dip d_init d_ol d_pot d_clk].
    unfold ol_init. rewrite L, Lf. destruct (dip_load new_pot p f g d eq_refl N Ef C) as (V & EV & GV & _ & DV & PV). rewrite EV.
    unfold dip_clock, ol_clock, lsr_clock. cbn [d_ol ol_gen ol_laser ls_data ls_dt ls_scale ls_clock d_pot new_ol new_lsr].
    assert (X : same (k_dt c) dt = true). { unfold same. rewrite <- S1. destruct (ocmp dt dt) as [[H|H]|H]; [exfalso; exact (olt_irr F _ H)|reflexivity|exfalso; exact (olt_irr F _ H)]. }
    rewrite X. cbn [negb orb]. unfold zlen in S2 |- *. rewrite map_length.
    destruct (Z.of_nat (length E) <? k_steps c)%Z eqn:Y; [lia|].
    eexists. split; [reflexivity|]. cbn. split; [exact DV|]. split; [exact GV|]. rewrite PV.
    unfold file_scale, scale_of. destruct f as [h dd|gg dd]; [destruct (p_scale h)|destruct (p_scale p)]; repeat split.
  Qed.

  Lemma rd_some (E : list F) t e : (0 <= t)%Z -> nth_error E (Z.to_nat t) = Some e -> rd (map Some E) t = Ok (Some e).
  Proof. intros H N. unfold rd. destruct (0 <=? t)%Z eqn:X; [|lia]. rewrite nth_error_map, N. reflexivity. Qed.

  Lemma mult_nth (w : list F) : forall psi j m (c : Cx F), nth_error w j = Some m -> nth_error psi j = Some c ->
    nth_error (mult w psi) j = Some (cx_scale m c).
  Proof.
    induction w as [|x w IH]; intros psi j m c H H'; [destruct j; discriminate H|]. destruct psi as [|y psi]; [destruct j; discriminate H'|].
    destruct j as [|j]; [injection H as <-; injection H' as <-; reflexivity|exact (IH psi j m c H H')].
  Qed.
  Lemma apply_field (D : dip F) psi e : field D = Ok (Some e) -> length psi = length (po_data (d_pot D)) ->
    exists r, dip_apply D psi = Ok (Some r) /\ coupled (po_data (d_pot D)) e psi r.
  Proof.
    intros H L. unfold dip_apply. rewrite H. cbn [bind]. unfold zlen. rewrite L, Z.eqb_refl. cbn [option_map].
    eexists. split; [reflexivity|]. split.
    - rewrite mult_len; rewrite map_length; [reflexivity|exact L].
    - intros j m c Hm Hc. pose proof (map_nth_error (fun m => m * (- (1) * e)) j _ Hm) as Hm'.
      rewrite (mult_nth _ psi j _ c Hm' Hc). f_equal. apply cx_eq; cbn; ring.
  Qed.
  Lemma field_at (D : dip F) c E e : d_clk D = Some c -> ls_clock (ol_laser (d_ol D)) = true -> ls_data (ol_laser (d_ol D)) = map Some E ->
    (0 <= k_step c)%Z -> nth_error E (Z.to_nat (k_step c)) = Some e -> field D = Ok (Some (e * ls_scale (ol_laser (d_ol D)))).
  Proof.
    intros H K L T N. unfold field, lsr_get. rewrite H, K, L, (rd_some E _ e T N). reflexivity.
  Qed.

  Lemma coupled_move mu (a e : F) psi r : coupled (map (fun v => v * a) mu) e psi r <-> coupled mu (a * e) psi r.
  Proof.
    unfold coupled. rewrite map_length. split; intros [L H]; (split; [exact L|]); intros j m c Hm Hc.
    - rewrite (H j (m * a) c); [|rewrite nth_error_map, Hm; reflexivity|exact Hc]. f_equal. apply cx_eq; cbn; ring.
    - rewrite nth_error_map in Hm. destruct (nth_error mu j) as [v|] eqn:X; [|discriminate Hm]. injection Hm as <-.
      rewrite (H j v c X Hc). f_equal. apply cx_eq; cbn; ring.
  Qed.
  Lemma moment_move p a b (d : list F) : moment p (a * b) d = map (fun v => v * b) (moment p a d).
  Proof. unfold moment. rewrite map_map. apply map_ext. intros x. ring. Qed.

  (** the coupling as it is *)
  Lemma coupling_code p lp f g d n E dt c t e psi : names p -> fs (p_file p) = Some f -> complete f g d ->
    lp_laser lp = Some n -> lfs n = Some (E, dt) -> suits c (E, dt) -> (0 <= t)%Z -> nth_error E (Z.to_nat t) = Some e -> length psi = length d ->
    exists D r, dip_start F fexp fcos emax0 w00 lfs fs p lp c t = Ok D /\ dip_apply D psi = Ok (Some r) /\
      coupled (moment p (scale_of p * file_scale f p) d) e psi r.
  Proof.
    intros N Ef C L Lf S T He Lp. destruct (start_ok p lp f g d n E dt c t N Ef C L Lf S) as (D & ED & DD & _ & LD & SD & KD & CD & _).
    exists D. pose proof (field_at D _ E e CD KD LD T He) as FA. rewrite SD in FA.
    destruct (apply_field D psi _ FA) as (r & ER & CR); [rewrite DD; unfold moment; rewrite map_length; exact Lp|].
    exists r. split; [exact ED|]. split; [exact ER|]. rewrite moment_move. apply coupled_move. rewrite DD in CR.
    replace (file_scale f p * e) with (e * file_scale f p) by ring. exact CR.
  Qed.

  (** ** bounds *)
  Lemma nmax_fold (E : list F) : forall a, fold_left (fun d x => if oless F d x then x else d) (map Some E) (Some a)
    = Some (fold_left (fun d x => if less d x then x else d) E a).
  Proof. induction E as [|x E IH]; intros a; [reflexivity|]. cbn [map fold_left oless]. destruct (less a x); apply IH. Qed.
  Lemma nvec_max_some (E : list F) : E <> [] -> exists m, nvec_max F (map Some E) = Ok (Some m) /\ highest E m.
  Proof. destruct E as [|a E]; [intros []; reflexivity|]. intros _. eexists. split; [cbn [nvec_max map]; rewrite nmax_fold; reflexivity|apply max_fold]. Qed.
  Lemma ole_opp (a b : F) : ole a b -> ole (- b) (- a).
  Proof. intros H. apply (ole_add F _ _ (- a + - b)) in H. replace (a + (- a + - b)) with (- b) in H by ring. replace (b + (- a + - b)) with (- a) in H by ring. exact H. Qed.
  Lemma mul_mono (a b c d : F) : ole 0 a -> ole a b -> ole 0 c -> ole c d -> ole (a * c) (b * d).
  Proof.
    intros A B C D. apply (ole_tr F _ (b * c)); [apply ole_mul; assumption|]. replace (b * c) with (c * b) by ring. replace (b * d) with (d * b) by ring.
    apply ole_mul; [exact (ole_tr F _ _ _ A B)|exact D].
  Qed.
  Lemma mul_nonneg (a b : F) : ole 0 a -> ole 0 b -> ole 0 (a * b).
  Proof. intros A B. replace (0 : F) with (0 * b) by ring. apply ole_mul; assumption. Qed.
  Lemma bounds_ok (D : dip F) E c e psi r : d_clk D = Some c -> ls_data (ol_laser (d_ol D)) = map Some E ->
    (forall m, In m (po_data (d_pot D)) -> ole 0 m) -> (forall x, In x E -> ole 0 x) ->
    ole 0 (ls_scale (ol_laser (d_ol D))) -> ole (ls_scale (ol_laser (d_ol D))) 1 -> po_data (d_pot D) <> [] ->
    field D = Ok e -> dip_apply D psi = Ok (Some r) ->
    exists M, dip_emax D = Ok (Some M) /\ within (M * norm2 psi) (fst (braket psi r)).
  Proof.
    intros K L PM PE S0 S1 ND HF A. unfold dip_apply in A. rewrite HF in A. cbn [bind] in A.
    destruct (zlen psi =? zlen (po_data (d_pot D)))%Z eqn:Z; [|discriminate A]. destruct e as [e|]; [|discriminate A]. injection A as <-.
    unfold field, lsr_get in HF. rewrite K, L in HF. destruct (ls_clock (ol_laser (d_ol D))); [|discriminate HF].
    unfold rd in HF. destruct (0 <=? k_step c)%Z; [|discriminate HF]. rewrite nth_error_map in HF.
    destruct (nth_error E (Z.to_nat (k_step c))) as [x|] eqn:X; [|discriminate HF]. cbn [option_map bind] in HF. injection HF as <-.
    apply nth_error_In in X. assert (NE : E <> []) by (intros Y; rewrite Y in X; destruct X).
    destruct (nvec_max_some E NE) as (em & EM & HM & HL). destruct (vec_max_ok F _ ND) as (mm & MM & IM & LM).
    exists (mm * em). unfold dip_emax. rewrite MM, L. cbn [bind]. rewrite EM. split; [reflexivity|].
    assert (Lp : length psi = length (map (fun m => m * (- (1) * (x * ls_scale (ol_laser (d_ol D))))) (po_data (d_pot D)))).
    { rewrite map_length. unfold zlen in Z. lia. }
    assert (XS : ole (x * ls_scale (ol_laser (d_ol D))) em).
    { apply (ole_tr F _ (x * 1)); [|replace (x * 1) with x by ring; apply HL, X].
      rewrite (Rmul_comm (cr_th F) x _), (Rmul_comm (cr_th F) x 1). apply ole_mul; [apply PE, X|exact S1]. }
    assert (X0 : ole 0 (x * ls_scale (ol_laser (d_ol D)))) by (apply mul_nonneg; [apply PE, X|exact S0]).
    split.
    - replace (- (mm * em * norm2 psi)) with (- (mm * em) * norm2 psi) by ring. apply energy_low; [exact Lp|].
      intros y Hy. apply in_map_iff in Hy. destruct Hy as (m & <- & Hm).
      replace (m * (- (1) * (x * ls_scale (ol_laser (d_ol D))))) with (- (m * (x * ls_scale (ol_laser (d_ol D))))) by ring.
      apply ole_opp, mul_mono; [apply PM, Hm|apply LM, Hm|exact X0|exact XS].
    - apply energy_high; [exact Lp|]. intros y Hy. apply in_map_iff in Hy. destruct Hy as (m & <- & Hm).
      apply (ole_tr F _ 0).
      + replace (m * (- (1) * (x * ls_scale (ol_laser (d_ol D))))) with (- (m * (x * ls_scale (ol_laser (d_ol D))))) by ring.
        replace (0 : F) with (- (0) : F) by ring. apply ole_opp, mul_nonneg; [apply PM, Hm|exact X0].
      + apply mul_nonneg; [exact (PM _ IM)|]. exact (PE _ HM).
  Qed.

  (** ** pulses *)
  Lemma same_refl (a : F) : same a a = true.
  Proof. unfold same. destruct (ocmp a a) as [[H|H]|H]; [exfalso; exact (olt_irr F _ H)|reflexivity|exfalso; exact (olt_irr F _ H)]. Qed.
  Lemma same_neq (a b : F) : a <> b -> same a b = false.
  Proof. intros H. destruct (same a b) eqn:E; [apply same_t in E; contradiction|reflexivity]. Qed.
  Lemma within_opp (b x : F) : within b x -> within b (- x).
  Proof. intros [H1 H2]. split; [apply ole_opp, H2|]. apply ole_opp in H1. replace (- - b) with b in H1 by ring. exact H1. Qed.
  Lemma within_mul (a u v : F) : ole 0 a -> ole 0 u -> ole u 1 -> ole (- (1)) v -> ole v 1 -> within a (a * u * v).
  Proof.
    intros A U0 U1 V0 V1.
    assert (AU : ole 0 (a * u)) by (apply mul_nonneg; assumption).
    assert (AU1 : ole (a * u) a).
    { replace a with (1 * a) at 2 by ring. rewrite (Rmul_comm (cr_th F) a u). apply ole_mul; assumption. }
    split.
    - apply (ole_tr F _ (- (a * u))); [apply ole_opp, AU1|]. replace (- (a * u)) with (- (1) * (a * u)) by ring.
      rewrite (Rmul_comm (cr_th F) (a * u) v). apply ole_mul; assumption.
    - apply (ole_tr F _ (a * u)); [|exact AU1]. replace (a * u) with (1 * (a * u)) at 2 by ring.
      rewrite (Rmul_comm (cr_th F) (a * u) v). apply ole_mul; assumption.
  Qed.
  Lemma half_neg (d s : F) : s * s <> 0 -> ole (- (d * d) / ofZ 2 / (s * s)) 0.
  Proof.
    intros N. assert (T : (ofZ 2 : F) <> 0) by (change (ofZ 2 : F) with (1 + 1 : F); apply two_neq).
    assert (P2 : ole (0 : F) (1 / (1 + 1))) by (left; apply inv_pos, two_pos).
    assert (PS : ole 0 (1 / (s * s))). { left. apply inv_pos. destruct (sq_nonneg F s) as [H|H]; [exact H|]. contradiction N. symmetry. exact H. }
    replace (- (d * d) / ofZ 2 / (s * s)) with (- (d * d * (1 / (1 + 1)) * (1 / (s * s)))).
    - replace (0 : F) with (- (0) : F) by ring. apply ole_opp. apply mul_nonneg; [|exact PS]. apply mul_nonneg; [apply sq_nonneg|exact P2].
    - change (ofZ 2 : F) with (1 + 1 : F) in *. field. split; [exact T|]. intros X. apply N. rewrite X. ring.
  Qed.
  Hypothesis laws : pulse_laws fexp fcos.
  Let smp := sample F fexp fcos emax0 w00.
  Lemma sample_bound c p i : ole 0 (dflt F (u_emax p) emax0) -> width c p <> 0 ->
    exists x, smp c p i = Some x /\ within (dflt F (u_emax p) emax0) x.
  Proof.
    intros A W. unfold smp, sample. change (dflt F (u_sigma p) (cmul (ofZ (Z.quot (k_steps c) 8)) (k_dt c))) with (width c p). change (dflt F (u_t0 p) (cmul (ofZ (Z.quot (k_steps c) 2)) (k_dt c))) with (centre c p). cbv zeta.
    assert (N : width c p * width c p <> 0) by (intros X; apply mul_eq0 in X; destruct X; contradiction).
    rewrite same_neq by exact N. eexists. split; [reflexivity|].
    set (d := ofZ i * k_dt c - centre c p). destruct (pl_exp F _ _ laws _ (half_neg d _ N)) as [E0 E1].
    destruct (pl_cos F _ _ laws (dflt F (u_w0 p) w00 * d + dflt F (u_phi p) 0 + dflt F (u_b p) 0 * d * d)) as [C0 C1].
    apply within_mul; assumption.
  Qed.
  Lemma sample_peak c p i : width c p <> 0 -> ofZ i * k_dt c = centre c p ->
    smp c p i = Some (dflt F (u_emax p) emax0 * fcos (dflt F (u_phi p) 0)).
  Proof.
    intros W P. unfold smp, sample. change (dflt F (u_sigma p) (cmul (ofZ (Z.quot (k_steps c) 8)) (k_dt c))) with (width c p). change (dflt F (u_t0 p) (cmul (ofZ (Z.quot (k_steps c) 2)) (k_dt c))) with (centre c p). cbv zeta.
    assert (N : width c p * width c p <> 0) by (intros X; apply mul_eq0 in X; destruct X; contradiction).
    rewrite same_neq by exact N. rewrite P. replace (centre c p - centre c p) with (0 : F) by ring.
    assert (T : (ofZ 2 : F) <> 0) by (change (ofZ 2 : F) with (1 + 1 : F); apply two_neq).
    replace (- (0 * 0) / ofZ 2 / (width c p * width c p)) with (0 : F) by (field; split; [exact T|exact W]).
    rewrite (pl_zero F _ _ laws).
    replace (dflt F (u_w0 p) w00 * 0 + dflt F (u_phi p) 0 + dflt F (u_b p) 0 * 0 * 0) with (dflt F (u_phi p) 0) by ring. f_equal. ring.
  Qed.
  Lemma sample_sym c p i j : dflt F (u_phi p) 0 = 0 -> dflt F (u_b p) 0 = 0 -> ofZ i * k_dt c - centre c p = centre c p - ofZ j * k_dt c ->
    smp c p i = smp c p j.
  Proof.
    intros P B H. unfold smp, sample. change (dflt F (u_sigma p) (cmul (ofZ (Z.quot (k_steps c) 8)) (k_dt c))) with (width c p). change (dflt F (u_t0 p) (cmul (ofZ (Z.quot (k_steps c) 2)) (k_dt c))) with (centre c p). cbv zeta.
    replace (ofZ j * k_dt c - centre c p) with (- (ofZ i * k_dt c - centre c p)) by (rewrite H; ring).
    set (d := ofZ i * k_dt c - centre c p). rewrite P, B.
    replace (- d * - d) with (d * d) by ring.
    replace (dflt F (u_w0 p) w00 * - d + 0 + 0 * - d * - d) with (- (dflt F (u_w0 p) w00 * d + 0 + 0 * d * d)) by ring.
    rewrite (pl_even F _ _ laws). reflexivity.
  Qed.
  Lemma exponent_eq (a : Cx F) (m e : F) : cmul (cmul (cmul (copp c1) a) (cx_of e)) (cx_of m) = cmul a (cx_of (copp (cmul m e))).
  Proof. apply cx_eq; cbn; ring. Qed.
  Lemma zero_mul (x : F) : 0 * x = 0.
  Proof. ring. Qed.
  Lemma sample_nan c p i : width c p = 0 -> ofZ i * k_dt c = centre c p -> smp c p i = None.
  Proof.
    intros W P. unfold smp, sample. change (dflt F (u_sigma p) (cmul (ofZ (Z.quot (k_steps c) 8)) (k_dt c))) with (width c p). change (dflt F (u_t0 p) (cmul (ofZ (Z.quot (k_steps c) 2)) (k_dt c))) with (centre c p). cbv zeta. rewrite W.
    replace (same (0 * 0 : F) c0) with true by (replace (0 * 0 : F) with (0 : F) by ring; symmetry; apply same_refl).
    rewrite P. replace ((centre c p - centre c p) * (centre c p - centre c p)) with (0 : F) by ring. rewrite same_refl. reflexivity.
  Qed.
End Proofs.
