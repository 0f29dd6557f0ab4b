(** Proofs about Raman couplings (C96). *)
From Coq Require Import Ascii String List ZArith Lia Bool Arith Field.
From Verif Require Import Base Arrays Algebra Complex Ordered Model.Potential Spec.Potential Proofs.Potential Model.Dipole Spec.Dipole Proofs.Dipole Model.Raman Spec.Raman.
Import ListNotations.
Open Scope Z_scope.

Section Proofs.
  Variable F : ofld.
  Add Ring RFr : (cr_th F).
  Add Field RFf : (f_th F).
  Variable lfs : str -> option (list F * F).
  Variable fs : str -> option (file F).
  Open Scope cr_scope.

  Lemma field_name p i : field_of lfs p i = match laser_name p i with Some n => lfs n | None => None end.
  Proof. unfold field_of, laser_name. destruct (nl_num p i); [reflexivity|]. destruct (nl_all p); reflexivity. Qed.
  (** reading succeeds exactly if every field can be read *)
  Lemma lasers_ok p : forall l i, snd (lasers_init F lfs p i l) = Ok tt <-> forall k, (k < length l)%nat -> field_of lfs p (i + k) <> None.
  Proof.
    clear fs. induction l as [|x l IH]; intros i; [split; [intros _ k H; cbn in H; lia|reflexivity]|]. cbn [lasers_init]. pose proof (field_name p i) as N.
    split.
    - intros H k Hk. destruct (laser_name p i) as [n|]; [|discriminate H]. destruct (lfs n) as [[d dt]|] eqn:E; [|discriminate H].
      destruct k as [|k]; [rewrite Nat.add_0_r, N; discriminate|]. rewrite <- plus_n_Sm. change (S (i + k)) with (S i + k)%nat. apply (proj1 (IH (S i))); [|cbn in Hk; lia].
      destruct (lasers_init F lfs p (S i) l). exact H.
    - intros H. pose proof (H 0%nat ltac:(cbn; lia)) as H0. rewrite Nat.add_0_r, N in H0. destruct (laser_name p i) as [n|]; [|congruence]. destruct (lfs n) as [[d dt]|]; [|congruence].
      assert (X : snd (lasers_init F lfs p (S i) l) = Ok tt). { apply IH. intros k Hk. change (S i + k)%nat with (S (i + k)). rewrite plus_n_Sm. apply H. cbn. lia. }
      destruct (lasers_init F lfs p (S i) l). exact X.
  Qed.
  Lemma lasers_no_ub p : forall l i, snd (lasers_init F lfs p i l) <> UB.
  Proof.
    induction l as [|x l IH]; intros i; cbn [lasers_init]; [discriminate|]. destruct (laser_name p i) as [n|]; [|discriminate]. destruct (lfs n) as [[d dt]|]; [|discriminate].
    specialize (IH (S i)). destruct (lasers_init F lfs p (S i) l). exact IH.
  Qed.

  Section Start.
    Variables (p : pars F) (lp : nlpars) (f : file F) (g : list (axis F)) (d : list F) (E0 E1 : list F) (dt0 dt1 : F) (c : clk F).
    Hypotheses (N : names p) (Ef : fs (p_file p) = Some f) (C : complete f g d).
    Hypotheses (L0 : field_of lfs lp 0 = Some (E0, dt0)) (L1 : field_of lfs lp 1 = Some (E1, dt1)).
    Lemma init_ok : exists V, ram_init F lfs fs new_ram p lp = (mkRam V [mkLsr (map Some E0) dt0 1 false; mkLsr (map Some E1) dt1 1 false] true None, Ok tt) /\
      po_data V = moment p (scale_of p) d /\ po_grid V = g /\ po_par V = match f with Raw h _ => h | Strm _ _ => p end.
    Proof.
      pose proof (field_name lp 0) as N0. pose proof (field_name lp 1) as N1. rewrite L0 in N0. rewrite L1 in N1.
      destruct (dip_load F fs new_pot p f g d eq_refl N Ef C) as (V & EV & GV & _ & DV & PV). exists V. split; [|auto].
      unfold ram_init. cbn [new_ram r_init r_ls r_pot r_clk lasers_init]. destruct (laser_name lp 0) as [n0|]; [|discriminate N0]. rewrite <- N0.
      destruct (laser_name lp 1) as [n1|]; [|discriminate N1]. rewrite <- N1. cbn [new_lsr ls_scale ls_clock]. rewrite EV. reflexivity.
    Qed.
    Lemma start_ok t : suits c (E0, dt0) -> suits c (E1, dt1) -> exists R, ram_start F lfs fs p lp c t = Ok R /\ po_data (r_pot R) = moment p (scale_of p) d /\
      po_grid (r_pot R) = g /\ r_ls R = [mkLsr (map Some E0) dt0 (file_scale f p) true; mkLsr (map Some E1) dt1 (file_scale f p) true] /\
      r_clk R = Some (mkClk (k_dt c) (k_steps c) t).
    Proof.
      intros [S0 S0'] [S1 S1']. cbn [fst snd] in *. destruct init_ok as (V & EV & DV & GV & PV). unfold ram_start. rewrite EV. unfold ram_clock. cbn [r_ls lasers_clock].
      unfold lsr_clock. cbn [ls_data ls_dt ls_scale]. rewrite S0, S1, !same_refl. cbn [negb orb]. unfold zlen in *. rewrite !map_length.
      destruct (Z.of_nat (length E0) <? k_steps c)%Z eqn:Y0; [lia|]. destruct (Z.of_nat (length E1) <? k_steps c)%Z eqn:Y1; [lia|].
      eexists. split; [reflexivity|]. cbn [ram_tick r_pot r_ls r_clk option_map]. split; [exact DV|]. split; [exact GV|]. rewrite PV. split; [|reflexivity].
      unfold file_scale, scale_of. destruct f as [h dd|gg dd]; [destruct (p_scale h)|destruct (p_scale p)]; reflexivity.
    Qed.
    Lemma start_refused t : ~ (suits c (E0, dt0) /\ suits c (E1, dt1)) -> ram_start F lfs fs p lp c t = Throw.
    Proof.
      intros H. destruct init_ok as (V & EV & _). unfold ram_start. rewrite EV. unfold ram_clock. cbn [r_ls lasers_clock].
      unfold lsr_clock. cbn [ls_data ls_dt ls_scale]. assert (Q : forall (E : list F) dt, negb (same (k_dt c) dt) || (zlen (map Some E) <? k_steps c)%Z = false -> suits c (E, dt)).
      { intros E dt X. apply orb_false_iff in X. destruct X as [X Y]. apply negb_false_iff in X. apply same_t in X. unfold suits, zlen in *. rewrite map_length in Y. cbn [fst snd]. split; [congruence|lia]. }
      destruct (negb (same (k_dt c) dt0) || _)%bool eqn:X0; [reflexivity|]. destruct (negb (same (k_dt c) dt1) || _)%bool eqn:X1; [reflexivity|].
      exfalso. apply H. split; apply Q; assumption.
    Qed.
  End Start.

  Lemma apply_raman (R : ram F) psi e0 e1 : laser_now R 0 = Ok (Some e0) -> laser_now R 1 = Ok (Some e1) -> length psi = length (po_data (r_pot R)) ->
    exists r, ram_apply R psi = Ok (Some r) /\ raman (- half) (po_data (r_pot R)) e0 e1 psi r.
  Proof.
    intros H0 H1 L. unfold ram_apply. rewrite H0, H1. cbn [bind]. unfold zlen. rewrite L, Z.eqb_refl. cbn [option_map omul].
    eexists. split; [reflexivity|]. split.
    - rewrite mult_len; rewrite map_length; [reflexivity|exact L].
    - intros j m c Hm Hc. pose proof (map_nth_error (fun m => m * (- half * e0 * e1)) j _ Hm) as Hm'.
      change (fdiv 1 (1 + 1)) with (half : F). rewrite (mult_nth F _ psi j _ c Hm' Hc). f_equal. apply cx_eq; cbn [cx_scale fst snd]; generalize (half : F); intros h; ring.
  Qed.
  Lemma now_ok (R : ram F) i l c E e : nth_error (r_ls R) i = Some l -> r_clk R = Some c -> ls_clock l = true -> ls_data l = map Some E ->
    (0 <= k_step c)%Z -> nth_error E (Z.to_nat (k_step c)) = Some e -> laser_now R i = Ok (Some (e * ls_scale l)).
  Proof. intros H K CL D T NE. unfold laser_now, lsr_get. rewrite H, K, CL, D, (rd_some F (fun x => x) (fun x => x) E _ e T NE). reflexivity. Qed.
  Lemma raman_move k mu (a b : F) e0 e1 psi r : raman k mu (e0 * a) (e1 * b) psi r <-> raman k (map (fun v => v * (a * b)) mu) e0 e1 psi r.
  Proof.
    unfold raman. rewrite map_length. split; intros [L H]; (split; [exact L|]); intros j m c Hm Hc.
    - rewrite nth_error_map in Hm. destruct (nth_error mu j) as [v|] eqn:X; [|discriminate Hm]. injection Hm as <-.
      rewrite (H j v c X Hc). f_equal. apply cx_eq; cbn; ring.
    - rewrite (H j (m * (a * b)) c); [|rewrite nth_error_map, Hm; reflexivity|exact Hc]. f_equal. apply cx_eq; cbn; ring.
  Qed.

  (** the coupling as it is *)
  Lemma raman_code p lp f g d E0 E1 dt0 dt1 c t e0 e1 psi : names p -> fs (p_file p) = Some f -> complete f g d ->
    field_of lfs lp 0 = Some (E0, dt0) -> field_of lfs lp 1 = Some (E1, dt1) -> suits c (E0, dt0) -> suits c (E1, dt1) -> (0 <= t)%Z ->
    nth_error E0 (Z.to_nat t) = Some e0 -> nth_error E1 (Z.to_nat t) = Some e1 -> length psi = length d ->
    exists R r, ram_start F lfs fs p lp c t = Ok R /\ ram_apply R psi = Ok (Some r) /\
      raman (- half) (moment p (scale_of p * (file_scale f p * file_scale f p)) d) e0 e1 psi r.
  Proof.
    intros N Ef C L0 L1 S0 S1 T H0 H1 Lp. destruct (start_ok p lp f g d E0 E1 dt0 dt1 c N Ef C L0 L1 t S0 S1) as (R & ER & DR & _ & LR & CR).
    exists R. pose proof (now_ok R 0 _ _ E0 e0 ltac:(rewrite LR; reflexivity) CR eq_refl eq_refl T H0) as A0.
    pose proof (now_ok R 1 _ _ E1 e1 ltac:(rewrite LR; reflexivity) CR eq_refl eq_refl T H1) as A1. cbn [ls_scale] in A0, A1.
    destruct (apply_raman R psi _ _ A0 A1) as (r & Er & CC); [rewrite DR; unfold moment; rewrite map_length; exact Lp|].
    exists r. split; [exact ER|]. split; [exact Er|]. rewrite moment_move, <- DR. apply raman_move. exact CC.
  Qed.

  (** ** bounds *)
  Lemma half_pos : olt 0 (half : F).
  Proof. apply inv_pos. apply (olt_tr F _ 1); [apply one_pos|]. replace (1 : F) with (0 + 1 : F) at 1 by ring. apply (olt_add F). apply one_pos. Qed.
  Definition laser_in (l : lsr F) (E : list F) : Prop := ls_data l = map Some E /\ (forall x, In x E -> ole 0 x) /\ ole 0 (ls_scale l) /\ ole (ls_scale l) 1.
  Lemma laser_value (l : lsr F) c E x : laser_in l E -> lsr_get l c = Ok (Some x) -> exists m, nvec_max F (ls_data l) = Ok (Some m) /\ ole 0 x /\ ole x m.
  Proof.
    intros (D & P & S0 & S1) H. unfold lsr_get in H. destruct (ls_clock l); [|discriminate H]. rewrite D in *. unfold rd in H.
    destruct (0 <=? k_step c)%Z; [|discriminate H]. rewrite nth_error_map in H. destruct (nth_error E (Z.to_nat (k_step c))) as [y|] eqn:Y; [|discriminate H].
    cbn [option_map bind] in H. injection H as <-. apply nth_error_In in Y. assert (NE : E <> []) by (intros Z; rewrite Z in Y; destruct Y).
    destruct (nvec_max_some F E NE) as (m & Em & _ & Hm). exists m. split; [exact Em|]. split; [apply mul_nonneg; [apply P, Y|exact S0]|].
    apply (ole_tr F _ y); [|apply Hm, Y]. replace y with (1 * y) at 2 by ring. rewrite (Rmul_comm (cr_th F) y). apply ole_mul; [apply P, Y|exact S1].
  Qed.
  Lemma raman_bounds (R : ram F) l0 l1 E0 E1 psi r : r_ls R = [l0; l1] -> laser_in l0 E0 -> laser_in l1 E1 ->
    (forall m, In m (po_data (r_pot R)) -> ole 0 m) -> po_data (r_pot R) <> [] -> ram_apply R psi = Ok (Some r) ->
    exists M, ram_emax R = Ok (Some M) /\ ole (- M * norm2 psi) (fst (braket psi r)) /\ ole (fst (braket psi r)) (ram_emin R).
  Proof.
    intros HL I0 I1 PM ND A. unfold ram_apply in A.
    assert (Q : forall i l, nth_error (r_ls R) i = Some l -> forall v, laser_now R i = Ok v -> exists c, lsr_get l c = Ok v).
    { intros i l Hi v Hv. unfold laser_now in Hv. rewrite Hi in Hv. destruct (r_clk R) as [c|]; [exists c; exact Hv|discriminate Hv]. }
    pose proof (Q 0%nat l0 ltac:(rewrite HL; reflexivity)) as Q0. pose proof (Q 1%nat l1 ltac:(rewrite HL; reflexivity)) as Q1.
    destruct (laser_now R 0) as [v0| |]; [|discriminate A|discriminate A]. cbn [bind] in A. destruct (laser_now R 1) as [v1| |]; [|discriminate A|discriminate A]. cbn [bind] in A.
    destruct (zlen psi =? zlen (po_data (r_pot R)))%Z eqn:Z; [|discriminate A]. destruct v0 as [x0|]; [|discriminate A]. destruct v1 as [x1|]; [|discriminate A].
    cbn [omul option_map] in A. injection A as <-. destruct (Q0 _ eq_refl) as [c0 G0]. destruct (Q1 _ eq_refl) as [c1 G1].
    destruct (laser_value l0 c0 E0 x0 I0 G0) as (m0 & M0 & P0 & B0). destruct (laser_value l1 c1 E1 x1 I1 G1) as (m1 & M1 & P1 & B1).
    destruct (vec_max_ok F _ ND) as (mm & MM & IM & LM). unfold ram_emax. rewrite MM, HL. cbn [bind]. rewrite M0, M1. cbn [bind omul]. eexists. split; [reflexivity|].
    change (fdiv (1 : F) (1 + 1)) with (half : F). pose proof half_pos as HP. generalize dependent (half : F). intros h HP.
    assert (Lp : length psi = length (map (fun m => m * (- h * x0 * x1)) (po_data (r_pot R)))). { rewrite map_length. unfold zlen in Z. lia. }
    split.
    - apply (energy_low F _ _ psi Lp). intros y Hy. apply in_map_iff in Hy. destruct Hy as (m & <- & Hm).
      replace (m * (- h * x0 * x1)) with (- (h * m * x0 * x1)) by ring. apply ole_opp. assert (H0 : ole 0 h) by (left; exact HP).
      apply mul_mono; [apply mul_nonneg; [apply mul_nonneg; [exact H0|apply PM, Hm]|exact P0]| |exact P1|exact B1].
      apply mul_mono; [apply mul_nonneg; [exact H0|apply PM, Hm]| |exact P0|exact B0].
      rewrite !(Rmul_comm (cr_th F) h). apply ole_mul; [exact H0|apply LM, Hm].
    - unfold ram_emin. replace (0 : F) with (0 * norm2 psi) by ring. apply (energy_high F _ _ psi Lp). intros y Hy. apply in_map_iff in Hy. destruct Hy as (m & <- & Hm).
      replace (m * (- h * x0 * x1)) with (- (h * m * x0 * x1)) by ring. replace (0 : F) with (- (0) : F) by ring. apply ole_opp.
      apply mul_nonneg; [|exact P1]. apply mul_nonneg; [|exact P0]. apply mul_nonneg; [left; exact HP|apply PM, Hm].
  Qed.
  Lemma exponents_ok (R : ram F) a e0 e1 : laser_now R 0 = Ok (Some e0) -> laser_now R 1 = Ok (Some e1) ->
    exists x, ram_exponents R a = Ok (Some x) /\ length x = length (po_data (r_pot R)) /\
    forall j m, nth_error (po_data (r_pot R)) j = Some m -> nth_error x j = Some (cmul a (cx_of (- (e0 * m * e1)))).
  Proof.
    intros H0 H1. unfold ram_exponents. rewrite H0, H1. cbn [bind omul option_map]. eexists. split; [reflexivity|]. split; [apply map_length|].
    intros j m Hm. rewrite (map_nth_error _ j _ Hm). f_equal. apply cx_eq; cbn; ring.
  Qed.
  Lemma half_move (a : Cx F) e0 e1 m : cmul (cmul (cx_of (half : F)) a) (cx_of (- (e0 * m * e1))) = cmul a (cx_of (- half * (e0 * m * e1))).
  Proof. generalize (half : F). intros h. apply cx_eq; cbn; ring. Qed.
  Lemma exchange (d : list F) h u v : map (fun m => m * (h * u * v)) d = map (fun m => m * (h * v * u)) d.
  Proof. apply map_ext. intros m. ring. Qed.
End Proofs.
