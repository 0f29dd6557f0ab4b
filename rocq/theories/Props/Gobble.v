(** C86: absorbers *)
From Coq Require Import List ZArith Lia Bool Arith QArith Qcanon.
From Verif Require Import Base Arrays Algebra Complex Model.Grid Spec.Grid Model.Gobble Spec.Gobble Proofs.Derive Proofs.Gobble.
Import ListNotations.
Open Scope Z_scope.

(** [valid p q]: filter order at least one, "dims" absent or matching, 1 to 4 dimensions with points, positive spacing.
    [start p q]: a new operator, Init with the parameters p, then Init with a wave function on the grid q; the flag is false when
    the second Init threw. *)

(** ** the table *)
(** a window: gain times the product of all filters, whatever the cut-offs inside the grid *)
Definition C86_window : Prop := forall p q, valid p q -> is_nip p = false ->
  all_cuts (q_ds q) (p_lp p) (p_rp p) (inside (q_ds q) (q_x0 q) (q_dx q)) ->
  exists t, start p q = Ok (started p q t, true) /\
    gtab (q_ds q) t (fun cs => gain_of p * window (q_ds q) (q_x0 q) (q_dx q) (p_lp p) (p_rp p) (expo p) cs)%Qc.
(** a potential: gain times the sum of the right passes *)
Definition C86_barrier : Prop := forall p q, valid p q -> is_nip p = true ->
  all_cuts (q_ds q) (p_lp p) (p_rp p) (fun d c => inside (q_ds q) (q_x0 q) (q_dx q) d c /\ c <> q_x0 q d) ->
  exists t, start p q = Ok (started p q t, true) /\
    gtab (q_ds q) t (fun cs => gain_of p * barrier (q_ds q) (q_x0 q) (q_dx q) (p_rp p) (expo p) cs)%Qc.
(** cut-offs are refused exactly when they are outside of the grid *)
Definition C86_reject : Prop := forall p q t b, valid p q -> start p q = Ok (started p q t, b) ->
  (b = true <-> all_cuts (q_ds q) (p_lp p) (p_rp p) (inside (q_ds q) (q_x0 q) (q_dx q))).

Definition line (n : Z) : geom := mkGeom [n] (fun _ => 0%Qc) (fun _ => 1%Qc).
Definition plane (n : Z) : geom := mkGeom [n; n] (fun _ => 0%Qc) (fun _ => 1%Qc).
Definition only (c : option Qc) : nat -> option Qc := fun d => match d with O => c | _ => None end.
Definition par (nip : bool) (lp rp : nat -> option Qc) : gparams := mkGPar (Some 1) None (Some nip) None None lp rp.
Definition both (c : Qc) : nat -> option Qc := fun _ => Some c.
Lemma line_valid nip lp rp : valid (par nip lp rp) (line 5).
Proof. constructor; cbn; [lia|exact I|lia|repeat constructor|]. intros d _. reflexivity. Qed.
Lemma plane_valid nip lp rp : valid (par nip lp rp) (plane 5).
Proof. constructor; cbn; [lia|exact I|lia|repeat constructor|]. intros d _. reflexivity. Qed.
Definition entry (s : outcome (gobbler * bool)) (i : Z) : outcome num :=
  match s with Ok (g, _) => rd (b_tab g) i | Throw => Throw | UB => UB end.
Definition thrown (s : outcome (gobbler * bool)) : bool := match s with Ok (_, b) => negb b | _ => true end.
Definition same_num (a : outcome num) (b : Q) : bool := match a with Ok (Some x) => Qeq_bool x b | _ => false end.

(** a cut-off at the first grid point gives not-a-number there *)
Theorem C86_window_refuted : ~ C86_window.
Proof.
  intros H. destruct (H (par false (only (Some 0%Qc)) (only None)) (line 5) (line_valid _ _ _) eq_refl) as (t & E & _ & T).
  - intros d c Hd [K|K]; destruct d; cbn in K; try discriminate. injection K as <-. split; vm_compute; discriminate.
  - specialize (T [0]). assert (N : entry (start (par false (only (Some 0%Qc)) (only None)) (line 5)) 0 = Ok None) by (vm_compute; reflexivity).
    rewrite E in N. cbn [entry started b_tab] in N. cbn [line q_ds] in T. change (flat [5] [0]) with 0 in T. 
    assert (B : in_box [5] [0]) by (repeat constructor; lia). pose proof (eq_trans (eq_sym N) (T B)). discriminate.
Qed.
Print Assumptions C86_window_refuted.
(** a left pass in a potential wipes out the right passes of the earlier dimensions *)
Definition nip_lp : gparams := par true (fun d => match d with 1%nat => Some (Q2Qc 1) | _ => None end) (only (Some (Q2Qc 2))).
Theorem C86_barrier_refuted : ~ C86_barrier.
Proof.
  intros H. destruct (H nip_lp (plane 5) (plane_valid _ _ _) eq_refl) as (t & E & _ & T).
  - intros d c Hd [K|K]; destruct d as [|[|]]; cbn in K; try discriminate; injection K as <-; (split; [split; vm_compute; discriminate|intros X; vm_compute in X; discriminate]).
  - specialize (T [4; 4]). assert (N : same_num (entry (start nip_lp (plane 5)) 24) (4 # 85) = true) by (vm_compute; reflexivity).
    rewrite E in N. cbn [entry started b_tab] in N. cbn [plane q_ds] in T. change (flat [5; 5] [4; 4]) with 24 in T. 
    assert (B : in_box [5; 5] [4; 4]) by (repeat constructor; lia).
    pose proof (eq_trans (f_equal (fun o => same_num o (4 # 85)) (eq_sym (T B))) N) as X. vm_compute in X. discriminate.
Qed.
Print Assumptions C86_barrier_refuted.
(** cut-offs up to one spacing before the first and less than two after the last grid point are accepted *)
Theorem C86_reject_refuted : ~ C86_reject.
Proof.
  intros H. set (p := par false (only (Some (Q2Qc (11 # 2)))) (only None)). destruct (start_result p (line 5) (line_valid _ _ _)) as (t & b & E & _).
  specialize (H p (line 5) t b (line_valid _ _ _) E).
  assert (N : thrown (start p (line 5)) = false) by (vm_compute; reflexivity). rewrite E in N. cbn in N. destruct b; [|discriminate N].
  destruct (proj1 H eq_refl 0%nat (Q2Qc (11 # 2))) as [_ X]; [cbn; lia|left; reflexivity|]. vm_compute in X. apply X. reflexivity.
Qed.
Print Assumptions C86_reject_refuted.
(** what is refused, exactly *)
Theorem C86_reject_code : forall p q, valid p q -> exists t b, start p q = Ok (started p q t, b) /\
  (b = true <-> all_cuts (q_ds q) (p_lp p) (p_rp p) (fun d c => ~ outside (q_ds q) (q_x0 q) (q_dx q) d c)).
Proof. intros p q V. destruct (start_result p q V) as (t & b & E & B & _). exists t, b. split; [exact E|exact B]. Qed.
Print Assumptions C86_reject_code.
(** what the table is, exactly, whenever the cut-offs are accepted and differ from the first grid point *)
Theorem C86_window_partial : forall p q, valid p q -> is_nip p = false ->
  all_cuts (q_ds q) (p_lp p) (p_rp p) (fun d c => ~ outside (q_ds q) (q_x0 q) (q_dx q) d c /\ c <> q_x0 q d) ->
  exists t, start p q = Ok (started p q t, true) /\
    gtab (q_ds q) t (fun cs => gain_of p * window (q_ds q) (q_x0 q) (q_dx q) (p_lp p) (p_rp p) (expo p) cs)%Qc.
Proof.
  intros p q V N A. destruct (start_result p q V) as (t & b & E & B & T).
  assert (b = true) as -> by (apply B; intros d c Hd K; exact (proj1 (A d c Hd K))). exists t. split; [exact E|].
  rewrite N in T. apply T; [reflexivity|]. intros d c Hd K. exact (proj2 (A d c Hd K)).
Qed.
Print Assumptions C86_window_partial.
Theorem C86_barrier_code : forall p q, valid p q -> is_nip p = true ->
  all_cuts (q_ds q) (p_lp p) (p_rp p) (fun d c => ~ outside (q_ds q) (q_x0 q) (q_dx q) d c /\ c <> q_x0 q d) ->
  exists t, start p q = Ok (started p q t, true) /\
    gtab (q_ds q) t (fun cs => gain_of p * barrier_code (q_ds q) (q_x0 q) (q_dx q) (p_lp p) (p_rp p) (expo p) cs)%Qc.
Proof.
  intros p q V N A. destruct (start_result p q V) as (t & b & E & B & T).
  assert (b = true) as -> by (apply B; intros d c Hd K; exact (proj1 (A d c Hd K))). exists t. split; [exact E|].
  rewrite N in T. apply T; [reflexivity|]. intros d c Hd K. exact (proj2 (A d c Hd K)).
Qed.
Print Assumptions C86_barrier_code.
(** without left passes it is the sum *)
Theorem C86_barrier_partial : forall p q, valid p q -> is_nip p = true ->
  (forall d, (d < length (q_ds q))%nat -> p_lp p d = None) ->
  all_cuts (q_ds q) (p_lp p) (p_rp p) (fun d c => ~ outside (q_ds q) (q_x0 q) (q_dx q) d c /\ c <> q_x0 q d) ->
  exists t, start p q = Ok (started p q t, true) /\
    gtab (q_ds q) t (fun cs => gain_of p * barrier (q_ds q) (q_x0 q) (q_dx q) (p_rp p) (expo p) cs)%Qc.
Proof.
  intros p q V N L A. destruct (C86_barrier_code p q V N A) as (t & E & T1 & T2). exists t. split; [exact E|]. split; [exact T1|].
  intros cs Hc. rewrite (T2 cs Hc). do 3 f_equal. apply (barrier_right p q cs L).
Qed.
Print Assumptions C86_barrier_partial.
Example C86_window_ex : exists g, start (par false (only (Some (Q2Qc 2))) (only None)) (line 5) = Ok (g, true) /\
  same_num (rd (b_tab g) 0) 1 = true /\ same_num (rd (b_tab g) 1) (4 # 5) = true /\ same_num (rd (b_tab g) 2) (1 # 2) = true /\
  same_num (rd (b_tab g) 4) (1 # 5) = true.
Proof.
  set (s := start _ _). assert (K : match s with Ok (g, true) => same_num (rd (b_tab g) 0) 1 && same_num (rd (b_tab g) 1) (4 # 5)
    && same_num (rd (b_tab g) 2) (1 # 2) && same_num (rd (b_tab g) 4) (1 # 5) | _ => false end = true) by (vm_compute; reflexivity).
  destruct s as [[g []]| |]; try discriminate. rewrite !andb_true_iff in K. exists g. tauto.
Qed.

(** ** the filters: one half at the cut-off, more on the side that passes; left and right pass are complementary *)
Theorem C86_left_pass : forall x0 cut m x, (x0 < cut)%Qc -> (x0 <= x)%Qc -> even m ->
  ((x < cut)%Qc -> (1 < (1 + 1) * left_pass x0 cut m x)%Qc) /\ (x = cut -> ((1 + 1) * left_pass x0 cut m x = 1)%Qc) /\
  ((cut < x)%Qc -> ((1 + 1) * left_pass x0 cut m x < 1)%Qc).
Proof. exact left_half. Qed.
Print Assumptions C86_left_pass.
Theorem C86_complementary : forall x0 cut m x, cut <> x0 -> even m -> (left_pass x0 cut m x + right_pass x0 cut m x = 1)%Qc.
Proof. exact pass_sum. Qed.
Print Assumptions C86_complementary.
Example C86_left_pass_ex : even (expo (par false (only None) (only None))).
Proof. exact (expo_even _ _ (line_valid _ _ _)). Qed.

(** ** bounds: with a gain that is not negative, the table lies between zero and Emax, resp. minus the imaginary part of Emin *)
Definition C86_bounds : Prop := forall p q t, valid p q -> (0 <= gain_of p)%Qc ->
  all_cuts (q_ds q) (p_lp p) (p_rp p) (fun d c => ~ outside (q_ds q) (q_x0 q) (q_dx q) d c /\ c <> q_x0 q d) ->
  start p q = Ok (started p q t, true) ->
  exists w, t = map Some w /\ forall x, In x w -> (0 <= x)%Qc /\ (x <= if is_nip p then - snd (gob_emin (started p q t)) else fst (gob_emax (started p q t)))%Qc.
Theorem C86_bounds_refuted : ~ C86_bounds.
Proof.
  intros H. set (p := par true (only None) (both (Q2Qc 1))). destruct (start_result p (plane 5) (plane_valid _ _ _)) as (t & b & E & _ & _).
  assert (N : match start p (plane 5) with Ok (g, true) => same_num (rd (b_tab g) 24) (32 # 17) | _ => false end = true) by (vm_compute; reflexivity).
  rewrite E in N. destruct b; [|discriminate N]. destruct (H p (plane 5) t (plane_valid _ _ _)) as (w & -> & B).
  - vm_compute. discriminate.
  - clear - p. intros d c Hd [K|K]; [destruct d; discriminate|]. change (Some (Q2Qc 1) = Some c) in K. injection K as <-.
    split; [|discriminate]. destruct d as [|[|d]]; [| |exfalso; cbn in Hd; lia]; intros [X|X]; vm_compute in X; apply X; reflexivity.
  - exact E.
  - cbn [started b_tab] in N. rewrite rd_map in N. destruct (rd w 24) as [x| |] eqn:Ex; [|discriminate N|discriminate N]. cbn [bind same_num] in N.
    destruct (B x) as [_ U].
    { unfold rd in Ex. destruct (0 <=? 24); [|discriminate Ex]. destruct (nth_error w (Z.to_nat 24)) eqn:En; [|discriminate Ex]. injection Ex as <-. eapply nth_error_In, En. }
    apply Qeq_bool_eq in N. cbn in U. unfold Qcle in U. rewrite N in U. vm_compute in U. apply U. reflexivity.
Qed.
Print Assumptions C86_bounds_refuted.
(** true for windows, and for potentials with one right pass *)
Theorem C86_bounds_partial : forall p q, valid p q -> (0 <= gain_of p)%Qc ->
  all_cuts (q_ds q) (p_lp p) (p_rp p) (fun d c => ~ outside (q_ds q) (q_x0 q) (q_dx q) d c /\ c <> q_x0 q d) ->
  (is_nip p = true -> exists d0, forall d, (d < length (q_ds q))%nat -> d <> d0 -> p_rp p d = None) ->
  exists w, start p q = Ok (started p q (map Some w), true) /\ length w = Z.to_nat (points (q_ds q)) /\
    forall x, In x w -> (0 <= x)%Qc /\
      (x <= if is_nip p then - snd (gob_emin (started p q (map Some w))) else fst (gob_emax (started p q (map Some w))))%Qc.
Proof.
  intros p q V G A One. destruct (start_result p q V) as (t & b & E & B & T).
  assert (b = true) as -> by (apply B; intros d c Hd K; exact (proj1 (A d c Hd K))).
  assert (A' : all_cuts (q_ds q) (p_lp p) (p_rp p) (off q)) by (intros d c Hd K; exact (proj2 (A d c Hd K))).
  specialize (T eq_refl A'). pose proof T as T'. apply gtab_finite in T'; [|exact (va_pos p q V)]. destruct T' as (w & -> & Lw & W). exists w. split; [exact E|].
  split. { destruct T as [T _]. unfold zlen in T. rewrite <- T, Nat2Z.id. exact Lw. }
  intros x Hx. destruct (W x Hx) as (cs & _ & ->). cbn [gob_emax gob_emin started b_gain b_nip fst snd].
  assert (S : forall y : Qc, (0 <= y)%Qc /\ (y <= 1)%Qc -> (0 <= gain_of p * y)%Qc /\ (gain_of p * y <= gain_of p)%Qc).
  { intros y [Y0 Y1]. split; [apply Qc_mul_nonneg; assumption|]. replace (gain_of p) with (1 * gain_of p)%Qc at 2 by ring. rewrite Qcmult_comm.
    apply Qcmult_le_compat_r; assumption. }
  unfold gob_emin. cbn [started b_gain b_nip]. destruct (is_nip p).
  - cbn [snd]. replace (- - gain_of p)%Qc with (gain_of p) by ring. apply S. split; [apply (barrier_nonneg p q V A')|].
    destruct (One eq_refl) as [d0 D]. apply (barrier_one p q V A' cs d0 D).
  - apply S. apply (window_bounds p q V A').
Qed.
Print Assumptions C86_bounds_partial.
Example C86_bounds_ex : all_cuts (q_ds (line 5)) (only (Some (Q2Qc 2))) (only None)
  (fun d c => ~ outside (q_ds (line 5)) (q_x0 (line 5)) (q_dx (line 5)) d c /\ c <> q_x0 (line 5) d).
Proof.
  intros d c Hd [K|K]; destruct d as [|]; cbn in K; try discriminate; injection K as <-;
      (split; [intros [X|X]; vm_compute in X; apply X; reflexivity|intros X; vm_compute in X; discriminate]).
Qed.

(** ** application: multiplication by the table, resp. by -i times the table (+i with the conjugate flag), in both forms *)
Theorem C86_apply : forall g w psi, b_tab g = map Some w -> length psi = length w ->
  apply_to g psi = Ok (map Some (diag_mul (map (symbol g) w) psi)) /\ apply_in g psi = apply_to g psi.
Proof. intros g w psi E L. rewrite (apply_to_ok g w psi E L), (apply_in_ok g w psi E L). split; reflexivity. Qed.
Print Assumptions C86_apply.
(** the conjugate flag gives the adjoint *)
Theorem C86_adjoint : forall g w phi psi, b_tab g = map Some w -> length phi = length w -> length psi = length w ->
  exists a b, apply_to g psi = Ok (map Some a) /\ apply_to (set_conj g (negb (b_conj g))) phi = Ok (map Some b) /\
    dotc phi a = dotc b psi.
Proof.
  intros g w phi psi E L1 L2. do 2 eexists. split; [apply apply_to_ok; eassumption|]. split; [apply apply_to_ok; eassumption|].
  rewrite diag_adjoint by (rewrite map_length; assumption). rewrite map_map. f_equal. f_equal. apply map_ext. intros x. symmetry. apply symbol_conj.
Qed.
Print Assumptions C86_adjoint.
(** no state grows under a window of gain one *)
Theorem C86_absorbs : forall g w psi, b_tab g = map Some w -> length psi = length w -> (forall x, In x w -> (0 <= x)%Qc /\ (x <= 1)%Qc) ->
  exists a, apply_to g psi = Ok (map Some a) /\ (nrm a <= nrm psi)%Qc.
Proof.
  intros g w psi E L B. eexists. split; [apply apply_to_ok; eassumption|]. replace (nrm psi) with (1 * nrm psi)%Qc by ring.
  apply diag_norm; [|rewrite map_length; exact L]. intros s Hs. apply in_map_iff in Hs. destruct Hs as (x & <- & Hx).
  assert (S : (x * x <= 1)%Qc).
  { destruct (B x Hx) as [B0 B1]. apply Qcle_trans with (1 * x)%Qc; [apply Qcmult_le_compat_r; assumption|]. replace (1 * x)%Qc with x by ring. exact B1. }
  unfold symbol. destruct (b_nip g), (b_conj g); cbn [fst snd];
    [replace (0 * 0 + x * x)%Qc with (x * x)%Qc by ring|replace (0 * 0 + - x * - x)%Qc with (x * x)%Qc by ring
    |replace (x * x + 0 * 0)%Qc with (x * x)%Qc by ring|replace (x * x + 0 * 0)%Qc with (x * x)%Qc by ring]; exact S.
Qed.
Print Assumptions C86_absorbs.
(** a potential takes norm away at the rate of its mean value: <psi|A psi> = -i sum_j w_j |psi_j|^2 *)
Theorem C86_decay : forall g w psi, b_tab g = map Some w -> b_nip g = true -> b_conj g = false -> length psi = length w ->
  exists a, apply_to g psi = Ok (map Some a) /\
    dotc psi a = (0, - qsum (fun x => x) (zip (fun (a : Cx Qcf) w => w * (fst a * fst a + snd a * snd a)) psi w))%Qc.
Proof.
  intros g w psi E N C L. eexists. split; [apply apply_to_ok; eassumption|]. rewrite (nip_dot g w psi N L), C. f_equal.
Qed.
Print Assumptions C86_decay.
(** Expec: the norm of the result with "residue", the mean value otherwise - zero for every potential *)
Theorem C86_expec : forall g w psi r, b_tab g = map Some w -> length psi = length w -> b_residue g = Some r ->
  exists a, apply_to g psi = Ok (map Some a) /\ expec g psi = Ok (Some (if r then nrm a else fst (dotc psi a))) /\
    (r = false -> b_nip g = true -> expec g psi = Ok (Some 0%Qc)).
Proof.
  intros g w psi r E L R. eexists. split; [apply apply_to_ok; eassumption|]. rewrite (expec_ok g w psi r E L R). split; [reflexivity|].
  intros -> N. rewrite (nip_dot g w psi N L). reflexivity.
Qed.
Print Assumptions C86_expec.
Theorem C86_expec_new_refuted : ~ (forall psi, exists x, expec new_gobbler psi = Ok x).
Proof. intros H. destruct (H []) as [x X]. discriminate. Qed.
Print Assumptions C86_expec_new_refuted.

(** ** the exponential: the argument at each grid point is the factor times the diagonal of the operator *)
Definition C86_exponential : Prop := forall g w c, b_tab g = map Some w -> exponents g c = map (fun x => Some (cmul c (symbol g x))) w.
(** a potential is treated as a real one: exp(c w) instead of exp(-i c w) *)
Theorem C86_exponential_refuted : ~ C86_exponential.
Proof.
  intros H. specialize (H (started (par true (only None) (only (Some (Q2Qc 2)))) (line 1) [Some 1%Qc]) [1%Qc] ((1, 0)%Qc : Cx Qcf) eq_refl).
  apply (f_equal (fun l : list (option (Cx Qcf)) => match l with Some z :: _ => Qeq_bool (this (fst z)) 1 | _ => false end)) in H. vm_compute in H. discriminate.
Qed.
Print Assumptions C86_exponential_refuted.
Theorem C86_exponential_partial : forall g w c, b_nip g = false -> b_tab g = map Some w ->
  exponents g c = map (fun x => Some (cmul c (symbol g x))) w.
Proof. intros g w c N E. rewrite (exponents_ok g w c E). unfold symbol. rewrite N. reflexivity. Qed.
Print Assumptions C86_exponential_partial.
Theorem C86_exponential_code : forall g w c, b_tab g = map Some w ->
  exponents g c = map (fun x => Some (cmul c ((x, 0%Qc) : Cx Qcf))) w.
Proof. exact exponents_ok. Qed.
Print Assumptions C86_exponential_code.

(** ** histories *)
(** an operator that was refused must not be usable *)
Definition C86_refused : Prop := forall p q g, valid p q -> start p q = Ok (g, false) -> forall g' b, init_psi g (Some q) = Ok (g', b) -> b = false.
Theorem C86_refused_refuted : ~ C86_refused.
Proof.
  intros H. set (p := par false (only (Some (Q2Qc 9))) (only None)). destruct (start_result p (line 5) (line_valid _ _ _)) as (t & b & E & _).
  assert (N : thrown (start p (line 5)) = true) by (vm_compute; reflexivity). rewrite E in N. cbn in N. destruct b; [discriminate N|].
  specialize (H p (line 5) (started p (line 5) t) (line_valid _ _ _) E _ _ (again (started p (line 5) t) (line 5) eq_refl)). discriminate.
Qed.
Print Assumptions C86_refused_refuted.
(** once there is a grid, Init with another wave function changes nothing *)
Theorem C86_again_code : forall g q, 0 < grid_size (q_ds (b_grid g)) -> init_psi g (Some q) = Ok (g, true).
Proof. exact again. Qed.
Print Assumptions C86_again_code.
(** a copy behaves as the original *)
Definition C86_copy : Prop := forall o q, 
  (forall psi, apply_to (copy new_gobbler o) psi = apply_to o psi) /\ b_herm (copy new_gobbler o) = b_herm o /\
  match init_psi (copy new_gobbler o) (Some q), init_psi o (Some q) with
  | Ok (a, x), Ok (b, y) => x = y /\ b_tab a = b_tab b
  | Throw, Throw => True | UB, UB => True | _, _ => False
  end.
(** the parameters are not copied: a copy made before Init(psi) is transparent *)
Theorem C86_copy_refuted : ~ C86_copy.
Proof.
  intros H. set (p := par false (only (Some (Q2Qc 2))) (only None)).
  assert (I : exists g1, init_params new_gobbler p = Ok g1) by (eexists; reflexivity). destruct I as [g1 Eg].
  destruct (H g1 (line 5)) as (_ & _ & X).
  assert (N : match init_params new_gobbler p with Ok g1 => match init_psi (copy new_gobbler g1) (Some (line 5)), init_psi g1 (Some (line 5)) with
     | Ok (a, _), Ok (b, _) => same_num (rd (b_tab a) 4) 1 && same_num (rd (b_tab b) 4) (1 # 5) | _, _ => false end | _ => false end = true) by (vm_compute; reflexivity).
  rewrite Eg in N. destruct (init_psi (copy new_gobbler g1) (Some (line 5))) as [[a x]| |]; try discriminate.
  destruct (init_psi g1 (Some (line 5))) as [[b y]| |]; try discriminate. destruct X as [_ X]. rewrite X in N. apply andb_true_iff in N. destruct N as [N1 N2].
  destruct (rd (b_tab b) 4) as [[z|]| |]; try discriminate. cbn in N1, N2. apply Qeq_bool_eq in N1, N2. rewrite N1 in N2. discriminate.
Qed.
Print Assumptions C86_copy_refuted.
(** a copy of a potential counts as hermitian *)
Theorem C86_hermitian_refuted : ~ (forall p q g, valid p q -> start p q = Ok (g, true) -> b_herm (copy new_gobbler g) = b_herm g).
Proof.
  intros H. set (p := par true (only None) (only (Some (Q2Qc 2)))). destruct (start_result p (line 5) (line_valid _ _ _)) as (t & b & E & _).
  assert (N : thrown (start p (line 5)) = false) by (vm_compute; reflexivity). rewrite E in N. cbn in N. destruct b; [|discriminate N].
  specialize (H p (line 5) _ (line_valid _ _ _) E). discriminate.
Qed.
Print Assumptions C86_hermitian_refuted.
(** a copy of an initialised operator acts as the original, without its conjugate flag *)
Theorem C86_copy_partial : forall o q, b_conj o = false -> 0 < grid_size (q_ds (b_grid o)) ->
  (forall psi, apply_to (copy new_gobbler o) psi = apply_to o psi /\ apply_in (copy new_gobbler o) psi = apply_in o psi /\
               expec (copy new_gobbler o) psi = expec o psi) /\
  gob_emax (copy new_gobbler o) = gob_emax o /\ gob_emin (copy new_gobbler o) = gob_emin o /\
  init_psi (copy new_gobbler o) (Some q) = Ok (copy new_gobbler o, true).
Proof.
  intros o q C S. assert (A : forall psi, apply_to (copy new_gobbler o) psi = apply_to o psi).
  { intros psi. unfold apply_to, apply_to_at, sgn. cbn [copy b_tab b_nip b_conj new_gobbler]. rewrite C. reflexivity. }
  split; [|split; [reflexivity|split; [reflexivity|apply again; exact S]]].
  intros psi. split; [apply A|]. split.
  - unfold apply_in, apply_at, sgn. cbn [copy b_tab b_nip b_conj new_gobbler]. rewrite C. reflexivity.
  - unfold expec. rewrite A. reflexivity.
Qed.
Print Assumptions C86_copy_partial.
Example C86_copy_ex : exists g, start (par true (only None) (only (Some (Q2Qc 2)))) (line 5) = Ok (g, true) /\ b_conj g = false /\
  0 < grid_size (q_ds (b_grid g)).
Proof.
  destruct (start_result (par true (only None) (only (Some (Q2Qc 2)))) (line 5) (line_valid _ _ _)) as (t & b & E & _).
  assert (N : thrown (start (par true (only None) (only (Some (Q2Qc 2)))) (line 5)) = false) by (vm_compute; reflexivity).
  rewrite E in N. cbn in N. destruct b; [|discriminate N]. eexists. split; [exact E|]. split; reflexivity.
Qed.
