(** Proofs for Model/Spo.v: diagonalization. *)
From Coq Require Import List ZArith Lia Bool Arith Ring Field.
From Verif Require Import Base Arrays Algebra Complex Ordered Model.Spo Spec.Spo.
Import ListNotations.

Section Diag.
  Variable F : ofld.
  Variable sq : F -> F.
  Add Ring DFr : (cr_th F).
  Add Field DFf : (f_th F).
  Open Scope cr_scope.
  Variables m1 m2 m12 : F.
  Notation th := (theta F m1 m2 m12).
  Notation t := (tan F sq m1 m2 m12).
  Notation r := (root F sq m1 m2 m12).
  Hypothesis Hg : m12 <> 0.
  Hypothesis H1 : is_sqrt F ((m1 - m2) * (m1 - m2) + two F * two F * m12 * m12) r.
  Hypothesis H2 : is_sqrt F (th * th + 1) (sq (th * th + 1)).

  Lemma two_ne : two F <> 0.
  Proof. exact (two_neq F). Qed.
  Lemma d_theta : m2 - m1 = two F * m12 * th.
  Proof. unfold theta. field. split; [exact Hg|exact two_ne]. Qed.
  Lemma sgn_abs x : oabs x = sgn F x * x.
  Proof. unfold oabs, sgn. destruct (ocmp x 0) as [[H|H]|H]; ring. Qed.
  Lemma sgn_sq x : sgn F x * sgn F x = 1.
  Proof. unfold sgn. destruct (ocmp x 0) as [[H|H]|H]; ring. Qed.
  Lemma th1_pos : olt 0 (th * th + 1).
  Proof. apply add_pos_le; [apply sq_nonneg|apply one_pos]. Qed.
  Lemma r2_pos : olt 0 (sq (th * th + 1)).
  Proof.
    destruct H2 as [[P|E] S]; [exact P|]. exfalso. pose proof th1_pos as X. rewrite <- S, <- E in X.
    replace (0 * 0) with (0 : F) in X by ring. exact (olt_irr F _ X).
  Qed.
  Lemma den_pos : olt 0 (oabs th + sq (th * th + 1)).
  Proof. apply add_pos_le; [apply abs_nonneg|exact r2_pos]. Qed.
  Lemma t_eq : t * t + two F * th * t = 1.
  Proof.
    unfold tan. pose proof den_pos as D. apply pos_neq in D. rewrite sgn_abs in *. destruct H2 as [_ S].
    set (s := sgn F th) in *. set (h := sq (th * th + 1)) in *. pose proof (sgn_sq th) as Q. fold s in Q.
    transitivity ((s * s + two F * th * s * (s * th + h)) / ((s * th + h) * (s * th + h))); [field; exact D|].
    replace (s * s + two F * th * s * (s * th + h)) with ((s * th + h) * (s * th + h)); [field; exact D|].
    transitivity ((s * s) * th * th + two F * s * th * h + h * h); [unfold two; ring|].
    transitivity (s * s + two F * th * th * (s * s) + two F * th * s * h); [rewrite S, Q; unfold two; ring|ring].
  Qed.
  Definition q : F := m2 - m1 + two F * t * m12.
  Lemma q_sq : q * q = r * r.
  Proof.
    destruct H1 as [_ ->]. unfold q. rewrite d_theta.
    replace (m1 - m2) with (- (two F * m12 * th)) by (rewrite <- d_theta; ring).
    replace ((two F * m12 * th + two F * t * m12) * (two F * m12 * th + two F * t * m12))
      with (two F * two F * m12 * m12 * (th * th + (t * t + two F * th * t))) by (unfold two; ring).
    rewrite t_eq. ring.
  Qed.
  (** the sign of q is that of g s *)
  Lemma q_form : q = two F * (sgn F th * m12) * (oabs th + 1 / (oabs th + sq (th * th + 1))).
  Proof.
    unfold q. rewrite d_theta. unfold tan. pose proof (pos_neq F _ den_pos) as D. set (p := oabs th + sq (th * th + 1)) in *.
    rewrite sgn_abs. pose proof (sgn_sq th) as Q.
    replace (two F * (sgn F th * m12) * (sgn F th * th + 1 / p)) with (two F * m12 * (sgn F th * sgn F th * th + sgn F th / p)) by (field; exact D).
    rewrite Q. field. exact D.
  Qed.
  Lemma fac_pos : olt 0 (oabs th + 1 / (oabs th + sq (th * th + 1))).
  Proof. apply add_pos_le; [apply abs_nonneg|]. apply inv_pos. exact den_pos. Qed.
  Lemma gs_pos : olt m1 m2 \/ (m1 = m2 /\ olt 0 m12) -> olt 0 (sgn F th * m12).
  Proof.
    intros H. unfold sgn. destruct H as [H|[E G]].
    - apply sub_pos in H. rewrite d_theta in H. destruct (ocmp th 0) as [[T|T]|T].
      + replace (- (1) * m12) with (- m12) by ring. apply opp_pos. destruct (ocmp m12 0) as [[G|G]|G]; [exact G|contradiction|].
        exfalso. apply (asym F 0 (two F * m12 * th)); [exact H|]. apply mul_pos_neg; [apply olt_mul; [exact (two_pos F)|exact G]|exact T].
      + exfalso. rewrite T in H. replace (two F * m12 * 0) with (0 : F) in H by ring. exact (olt_irr F _ H).
      + replace (1 * m12) with m12 by ring. destruct (ocmp m12 0) as [[G|G]|G]; [|contradiction|exact G].
        exfalso. apply (asym F 0 (two F * m12 * th)); [exact H|]. replace (two F * m12 * th) with (two F * th * m12) by ring.
        apply mul_pos_neg; [apply olt_mul; [exact (two_pos F)|exact T]|exact G].
    - assert (T0 : th = 0) by (unfold theta; rewrite E; field; split; [exact Hg|exact two_ne]).
      destruct (ocmp th 0) as [[T|T]|T]; [rewrite T0 in T; destruct (olt_irr F _ T)| |]; replace (1 * m12) with m12 by ring; exact G.
  Qed.
  Lemma gs_neg : olt m2 m1 \/ (m1 = m2 /\ olt m12 0) -> olt (sgn F th * m12) 0.
  Proof.
    intros H. unfold sgn. destruct H as [H|[E G]].
    - apply sub_pos in H. replace (m1 - m2) with (- (two F * m12 * th)) in H by (rewrite <- d_theta; ring). apply opp_neg in H.
      replace (- - (two F * m12 * th)) with (two F * m12 * th) in H by ring. destruct (ocmp th 0) as [[T|T]|T].
      + replace (- (1) * m12) with (- m12) by ring. apply opp_neg. destruct (ocmp m12 0) as [[G|G]|G]; [|contradiction|exact G].
        exfalso. apply (asym F 0 (two F * m12 * th)); [|exact H]. apply mul_neg_neg; [apply mul_pos_neg; [exact (two_pos F)|exact G]|exact T].
      + exfalso. rewrite T in H. replace (two F * m12 * 0) with (0 : F) in H by ring. exact (olt_irr F _ H).
      + replace (1 * m12) with m12 by ring. destruct (ocmp m12 0) as [[G|G]|G]; [exact G|contradiction|].
        exfalso. apply (asym F 0 (two F * m12 * th)); [|exact H]. apply olt_mul; [apply olt_mul; [exact (two_pos F)|exact G]|exact T].
    - assert (T0 : th = 0) by (unfold theta; rewrite E; field; split; [exact Hg|exact two_ne]).
      destruct (ocmp th 0) as [[T|T]|T]; [rewrite T0 in T; destruct (olt_irr F _ T)| |]; replace (1 * m12) with m12 by ring; exact G.
  Qed.
  Lemma r_pos : olt m1 m2 \/ (m1 = m2 /\ olt 0 m12) -> r = q.
  Proof.
    intros H. apply (sqrt_unique F); [exact (proj1 H1)| |symmetry; exact q_sq]. left. rewrite q_form.
    apply olt_mul; [apply olt_mul; [exact (two_pos F)|apply gs_pos, H]|exact fac_pos].
  Qed.
  Lemma r_neg : olt m2 m1 \/ (m1 = m2 /\ olt m12 0) -> r = - q.
  Proof.
    intros H. apply (sqrt_unique F); [exact (proj1 H1)| |rewrite <- q_sq; ring]. left. apply opp_pos. rewrite q_form.
    replace (two F * (sgn F th * m12) * (oabs th + 1 / (oabs th + sq (th * th + 1)))) with (two F * (oabs th + 1 / (oabs th + sq (th * th + 1))) * (sgn F th * m12)) by ring.
    apply mul_pos_neg; [apply olt_mul; [exact (two_pos F)|exact fac_pos]|apply gs_neg, H].
  Qed.
  Lemma half_two : half F * two F = 1.
  Proof. unfold half. field. exact two_ne. Qed.
  Lemma halves a b : two F * a = b -> half F * b = a.
  Proof. intros <-. replace (half F * (two F * a)) with (half F * two F * a) by ring. rewrite half_two. ring. Qed.
  (** the eigenvalue m1 - t m12 with vector (1, -t), and m2 + t m12 with (t, 1) *)
  Lemma vec_low k : eigen F m1 m2 m12 (m1 - t * m12) k (- t * k).
  Proof.
    assert (E : m12 * (t * t + two F * th * t) = m12) by (rewrite t_eq; ring).
    assert (E2 : m12 = (m2 - m1) * t + m12 * t * t) by (rewrite d_theta; rewrite <- E at 1; unfold two; ring).
    split; [ring|]. replace (m12 * k) with (((m2 - m1) * t + m12 * t * t) * k) by (rewrite <- E2; reflexivity). ring.
  Qed.
  Lemma vec_high k : eigen F m1 m2 m12 (m2 + t * m12) (t * k) k.
  Proof.
    assert (E : m12 * (t * t + two F * th * t) = m12) by (rewrite t_eq; ring).
    assert (E2 : m12 = (m2 - m1) * t + m12 * t * t) by (rewrite d_theta; rewrite <- E at 1; unfold two; ring).
    split; [|ring]. replace (m12 * k) with (((m2 - m1) * t + m12 * t * t) * k) by (rewrite <- E2; reflexivity). ring.
  Qed.
  Lemma evals_pos : r = q -> evals F sq m1 m2 m12 = (m1 - t * m12, m2 + t * m12).
  Proof. intros E. unfold evals. rewrite E. f_equal; apply halves; unfold q, two; ring. Qed.
  Lemma evals_neg : r = - q -> evals F sq m1 m2 m12 = (m2 + t * m12, m1 - t * m12).
  Proof. intros E. unfold evals. rewrite E. f_equal; apply halves; unfold q, two; ring. Qed.
End Diag.

Section Main.
  Variable F : ofld.
  Variable sq : F -> F.
  Add Ring MFr : (cr_th F).
  Add Field MFf : (f_th F).
  Open Scope cr_scope.
  Variables m1 m2 m12 : F.
  Notation th := (theta F m1 m2 m12).
  Notation t := (tan F sq m1 m2 m12).
  Definition roots12 : Prop := m12 <> 0 ->
    is_sqrt F ((m1 - m2) * (m1 - m2) + two F * two F * m12 * m12) (root F sq m1 m2 m12) /\ is_sqrt F (th * th + 1) (sq (th * th + 1)).
  Definition root3 : Prop := m12 <> 0 -> is_sqrt F (t * t + 1) (sq (t * t + 1)).
  Notation E := (diag22 F sq m1 m2 m12).

  Lemma diag_eigen : roots12 -> m1 <> m2 \/ ~ olt m12 0 ->
    eigen F m1 m2 m12 (e_0 E) (v_00 E) (v_10 E) /\ eigen F m1 m2 m12 (e_1 E) (v_01 E) (v_11 E).
  Proof.
    intros R H. unfold diag22. destruct (ocmp m12 0) as [[G|G]|G].
    2: { cbn. rewrite G. split; split; ring. }
    all: assert (N : m12 <> 0) by (intros X; rewrite X in G; exact (olt_irr F _ G)); destruct (R N) as [R1 R2].
    - destruct (ocmp m2 m1) as [[D|D]|D]; [|destruct H; [symmetry in D; contradiction|contradiction]|].
      + rewrite (evals_neg F sq m1 m2 m12 (r_neg F sq m1 m2 m12 N R1 R2 (or_introl D))). cbn. split.
        * apply vec_high; assumption.
        * apply vec_low; assumption.
      + rewrite (evals_pos F sq m1 m2 m12 (r_pos F sq m1 m2 m12 N R1 R2 (or_introl D))). cbn. split.
        * apply vec_low; assumption.
        * apply vec_high; assumption.
    - destruct (ocmp m2 m1) as [[D|D]|D].
      + rewrite (evals_neg F sq m1 m2 m12 (r_neg F sq m1 m2 m12 N R1 R2 (or_introl D))). cbn. split.
        * apply vec_high; assumption.
        * apply vec_low; assumption.
      + rewrite (evals_pos F sq m1 m2 m12 (r_pos F sq m1 m2 m12 N R1 R2 (or_intror (conj (eq_sym D) G)))). cbn. split.
        * apply vec_low; assumption.
        * apply vec_high; assumption.
      + rewrite (evals_pos F sq m1 m2 m12 (r_pos F sq m1 m2 m12 N R1 R2 (or_introl D))). cbn. split.
        * apply vec_low; assumption.
        * apply vec_high; assumption.
  Qed.
  Lemma diag_swapped : roots12 -> m1 = m2 -> olt m12 0 ->
    eigen F m1 m2 m12 (e_1 E) (v_00 E) (v_10 E) /\ eigen F m1 m2 m12 (e_0 E) (v_01 E) (v_11 E).
  Proof.
    intros R D G. assert (N : m12 <> 0) by (intros X; rewrite X in G; exact (olt_irr F _ G)). destruct (R N) as [R1 R2].
    unfold diag22. destruct (ocmp m12 0) as [[G'|G']|G']; [|contradiction|destruct (asym F _ _ G G')].
    rewrite (evals_neg F sq m1 m2 m12 (r_neg F sq m1 m2 m12 N R1 R2 (or_intror (conj D G)))).
    destruct (ocmp m2 m1) as [[X|X]|X]; [rewrite D in X; destruct (olt_irr F _ X)| |rewrite D in X; destruct (olt_irr F _ X)]; cbn; split;
      first [apply vec_low; assumption|apply vec_high; assumption].
  Qed.
  Lemma cos_sq : root3 -> m12 <> 0 -> (1 / sq (t * t + 1)) * (1 / sq (t * t + 1)) * (t * t + 1) = 1.
  Proof.
    intros R N. destruct (R N) as [_ S]. assert (P : olt 0 (t * t + 1)) by (apply add_pos_le; [apply sq_nonneg|apply one_pos]).
    assert (Z : sq (t * t + 1) <> 0) by (intros X; rewrite X in S; replace (0 * 0) with (0 : F) in S by ring; rewrite <- S in P; exact (olt_irr F _ P)).
    rewrite <- S at 3. field. exact Z.
  Qed.
  Lemma diag_orth : root3 -> v_00 E * v_00 E + v_10 E * v_10 E = 1 /\ v_01 E * v_01 E + v_11 E * v_11 E = 1 /\
    v_00 E * v_01 E + v_10 E * v_11 E = 0 /\
    v_00 E * v_00 E + v_01 E * v_01 E = 1 /\ v_10 E * v_10 E + v_11 E * v_11 E = 1 /\ v_00 E * v_10 E + v_01 E * v_11 E = 0.
  Proof.
    intros R. unfold diag22. destruct (ocmp m12 0) as [[G|G]|G].
    2: { cbn. repeat split; ring. }
    all: assert (N : m12 <> 0) by (intros X; rewrite X in G; exact (olt_irr F _ G)); pose proof (cos_sq R N) as C;
      set (c := 1 / sq (t * t + 1)) in *; destruct (evals F sq m1 m2 m12) as [e0 e1];
      destruct (ocmp m2 m1) as [[D|D]|D]; cbn; repeat split; try ring; rewrite <- C; ring.
  Qed.

  Variable cexp : Cx F -> Cx F.
  Variable c : Cx F.
  Notation step := (couple F sq cexp c m1 m2 m12).
  Lemma couple_linear a b (w w' : Cx F * Cx F) :
    step ((a * fst w + b * fst w'), (a * snd w + b * snd w')) =
    (a * fst (step w) + b * fst (step w'), a * snd (step w) + b * snd (step w')).
  Proof.
    pose proof (cr_th (Cx F)) as Th. unfold couple. cbn [fst snd]. generalize (cexp (cx_of (e_0 E) * c)) (cexp (cx_of (e_1 E) * c)).
    intros f0 f1. f_equal; apply cx_eq; cbn; ring.
  Qed.
  (** eigenvectors of column 0 and 1 *)
  Lemma couple_col0 a : root3 -> step (a * cx_of (v_00 E), a * cx_of (v_10 E)) =
    (cexp (cx_of (e_0 E) * c) * (a * cx_of (v_00 E)), cexp (cx_of (e_0 E) * c) * (a * cx_of (v_10 E))).
  Proof.
    intros R. destruct (diag_orth R) as (A1 & A2 & A3 & _). unfold couple. cbn [fst snd].
    replace (cx_of (v_00 E) * (a * cx_of (v_00 E)) + cx_of (v_10 E) * (a * cx_of (v_10 E))) with a.
    2: { transitivity (a * cx_of (v_00 E * v_00 E + v_10 E * v_10 E)); [rewrite A1|]; apply cx_eq; cbn; ring. }
    replace (cx_of (v_01 E) * (a * cx_of (v_00 E)) + cx_of (v_11 E) * (a * cx_of (v_10 E))) with (0 : Cx F).
    2: { transitivity (a * cx_of (v_00 E * v_01 E + v_10 E * v_11 E)); [rewrite A3|]; apply cx_eq; cbn; ring. }
    f_equal; apply cx_eq; cbn; ring.
  Qed.
  Lemma couple_col1 a : root3 -> step (a * cx_of (v_01 E), a * cx_of (v_11 E)) =
    (cexp (cx_of (e_1 E) * c) * (a * cx_of (v_01 E)), cexp (cx_of (e_1 E) * c) * (a * cx_of (v_11 E))).
  Proof.
    intros R. destruct (diag_orth R) as (A1 & A2 & A3 & _). unfold couple. cbn [fst snd].
    replace (cx_of (v_01 E) * (a * cx_of (v_01 E)) + cx_of (v_11 E) * (a * cx_of (v_11 E))) with a.
    2: { transitivity (a * cx_of (v_01 E * v_01 E + v_11 E * v_11 E)); [rewrite A2|]; apply cx_eq; cbn; ring. }
    replace (cx_of (v_00 E) * (a * cx_of (v_01 E)) + cx_of (v_10 E) * (a * cx_of (v_11 E))) with (0 : Cx F).
    2: { transitivity (a * cx_of (v_00 E * v_01 E + v_10 E * v_11 E)); [rewrite A3|]; apply cx_eq; cbn; ring. }
    f_equal; apply cx_eq; cbn; ring.
  Qed.

  Lemma exact_12 : exact_root F sq m1 m2 m12 -> roots12.
  Proof. intros H N. exact (H N). Qed.
  Lemma exact_3 : exact_root F sq m1 m2 m12 -> exact_norm F sq m1 m2 m12 -> root3.
  Proof. intros H H3 N. apply (H3 N). exact (t_eq F sq m1 m2 m12 (proj2 (H N))). Qed.

  (** the components along the two columns *)
  Definition comp0 (w : Cx F * Cx F) : Cx F := cx_of (v_00 E) * fst w + cx_of (v_10 E) * snd w.
  Definition comp1 (w : Cx F * Cx F) : Cx F := cx_of (v_01 E) * fst w + cx_of (v_11 E) * snd w.
  Lemma expand w : root3 -> w = (cx_of (v_00 E) * comp0 w + cx_of (v_01 E) * comp1 w, cx_of (v_10 E) * comp0 w + cx_of (v_11 E) * comp1 w).
  Proof.
    intros R. destruct (diag_orth R) as (_ & _ & _ & A4 & A5 & A6). destruct w as [w0 w1]. unfold comp0, comp1. cbn [fst snd]. f_equal.
    - transitivity (cx_of (v_00 E * v_00 E + v_01 E * v_01 E) * w0 + cx_of (v_00 E * v_10 E + v_01 E * v_11 E) * w1).
      + rewrite A4, A6. apply cx_eq; cbn; ring.
      + apply cx_eq; cbn; ring.
    - transitivity (cx_of (v_00 E * v_10 E + v_01 E * v_11 E) * w0 + cx_of (v_10 E * v_10 E + v_11 E * v_11 E) * w1).
      + rewrite A5, A6. apply cx_eq; cbn; ring.
      + apply cx_eq; cbn; ring.
  Qed.
  Lemma real_zero (a : F) (z : Cx F) : cx_of a * z = 0 -> a = 0 \/ z = 0.
  Proof.
    intros H. pose proof (f_equal fst H) as H1. pose proof (f_equal snd H) as H2. destruct z as [x y]. cbn in H1, H2.
    assert (X : a * x = 0) by (rewrite <- H1; ring). assert (Y : a * y = 0) by (rewrite <- H2; ring).
    apply mul_eq0 in X, Y. destruct X as [X|X]; [left; exact X|]. destruct Y as [Y|Y]; [left; exact Y|]. right. apply cx_eq; assumption.
  Qed.
  Lemma comp_eigen (x y e l : F) (w : Cx F * Cx F) : eigen F m1 m2 m12 e x y -> ceigen F m1 m2 m12 l w ->
    e = l \/ cx_of x * fst w + cx_of y * snd w = 0.
  Proof.
    intros [A B] [C D]. set (z := cx_of x * fst w + cx_of y * snd w). destruct (real_zero (e - l) z) as [Z|Z]; [| |right; exact Z].
    - transitivity (cx_of e * z - cx_of l * z); [apply cx_eq; cbn; ring|].
      replace (cx_of e * z) with (cx_of (e * x) * fst w + cx_of (e * y) * snd w) by (unfold z; apply cx_eq; cbn; ring).
      replace (cx_of l * z) with (cx_of x * (cx_of l * fst w) + cx_of y * (cx_of l * snd w)) by (unfold z; apply cx_eq; cbn; ring).
      rewrite <- A, <- B, <- C, <- D. apply cx_eq; cbn; ring.
    - left. transitivity (e - l + l); [ring|rewrite Z; ring].
  Qed.
  Lemma couple_comp w : step w = (cx_of (v_00 E) * (cexp (cx_of (e_0 E) * c) * comp0 w) + cx_of (v_01 E) * (cexp (cx_of (e_1 E) * c) * comp1 w),
    cx_of (v_10 E) * (cexp (cx_of (e_0 E) * c) * comp0 w) + cx_of (v_11 E) * (cexp (cx_of (e_1 E) * c) * comp1 w)).
  Proof. reflexivity. Qed.
  Lemma couple_eigen l w : exact_root F sq m1 m2 m12 -> exact_norm F sq m1 m2 m12 -> m1 <> m2 \/ ~ olt m12 0 -> ceigen F m1 m2 m12 l w ->
    step w = (cexp (cx_of l * c) * fst w, cexp (cx_of l * c) * snd w).
  Proof.
    intros R N H W. destruct (diag_eigen (exact_12 R) H) as [E0 E1]. pose proof (exact_3 R N) as R3.
    assert (X0 : cexp (cx_of (e_0 E) * c) * comp0 w = cexp (cx_of l * c) * comp0 w).
    { destruct (comp_eigen _ _ _ _ _ E0 W) as [X|X]; [rewrite X; reflexivity|]. unfold comp0. rewrite X. apply cx_eq; cbn; ring. }
    assert (X1 : cexp (cx_of (e_1 E) * c) * comp1 w = cexp (cx_of l * c) * comp1 w).
    { destruct (comp_eigen _ _ _ _ _ E1 W) as [X|X]; [rewrite X; reflexivity|]. unfold comp1. rewrite X. apply cx_eq; cbn; ring. }
    rewrite couple_comp, X0, X1. pose proof (expand w R3) as Ex. set (f := cexp (cx_of l * c)). set (a0 := comp0 w) in *. set (a1 := comp1 w) in *.
    rewrite Ex. cbn [fst snd]. f_equal; apply cx_eq; cbn; ring.
  Qed.
  Lemma comp_back (b0 b1 : Cx F) : root3 ->
    comp0 (cx_of (v_00 E) * b0 + cx_of (v_01 E) * b1, cx_of (v_10 E) * b0 + cx_of (v_11 E) * b1) = b0 /\
    comp1 (cx_of (v_00 E) * b0 + cx_of (v_01 E) * b1, cx_of (v_10 E) * b0 + cx_of (v_11 E) * b1) = b1.
  Proof.
    intros R. destruct (diag_orth R) as (A1 & A2 & A3 & _). unfold comp0, comp1. cbn [fst snd]. split.
    - transitivity (cx_of (v_00 E * v_00 E + v_10 E * v_10 E) * b0 + cx_of (v_00 E * v_01 E + v_10 E * v_11 E) * b1).
      + apply cx_eq; cbn; ring.
      + rewrite A1, A3. apply cx_eq; cbn; ring.
    - transitivity (cx_of (v_00 E * v_01 E + v_10 E * v_11 E) * b0 + cx_of (v_01 E * v_01 E + v_11 E * v_11 E) * b1).
      + apply cx_eq; cbn; ring.
      + rewrite A2, A3. apply cx_eq; cbn; ring.
  Qed.
  Lemma norm_comp (b0 b1 : Cx F) : root3 ->
    norm2 F (cx_of (v_00 E) * b0 + cx_of (v_01 E) * b1, cx_of (v_10 E) * b0 + cx_of (v_11 E) * b1) = abs2 F b0 + abs2 F b1.
  Proof.
    intros R. destruct (diag_orth R) as (A1 & A2 & A3 & _). unfold norm2, abs2. destruct b0 as [x0 y0], b1 as [x1 y1]. cbn.
    transitivity ((v_00 E * v_00 E + v_10 E * v_10 E) * (x0 * x0 + y0 * y0) + (v_01 E * v_01 E + v_11 E * v_11 E) * (x1 * x1 + y1 * y1)
      + (1 + 1) * (v_00 E * v_01 E + v_10 E * v_11 E) * (x0 * x1 + y0 * y1)); [ring|]. rewrite A1, A2, A3. ring.
  Qed.
  Lemma abs2_mul (a b : Cx F) : abs2 F (a * b) = abs2 F a * abs2 F b.
  Proof. unfold abs2. destruct a, b. cbn. ring. Qed.
  Lemma couple_norm w : exact_root F sq m1 m2 m12 -> exact_norm F sq m1 m2 m12 -> (forall e : F, abs2 F (cexp (cx_of e * c)) = 1) ->
    norm2 F (step w) = norm2 F w.
  Proof.
    intros R N U. pose proof (exact_3 R N) as R3. rewrite couple_comp, norm_comp, !abs2_mul, !U by exact R3.
    rewrite (expand w R3) at 3. rewrite norm_comp by exact R3. ring.
  Qed.
End Main.

Section More.
  Variable F : ofld.
  Variable sq : F -> F.
  Add Ring OFr : (cr_th F).
  Add Field OFf : (f_th F).
  Open Scope cr_scope.
  Variable cexp : Cx F -> Cx F.
  Lemma couple_add m1 m2 m12 c c' w : exact_root F sq m1 m2 m12 -> exact_norm F sq m1 m2 m12 ->
    (forall a b, cexp (a + b) = cexp a * cexp b) ->
    couple F sq cexp c m1 m2 m12 (couple F sq cexp c' m1 m2 m12 w) = couple F sq cexp (c + c') m1 m2 m12 w.
  Proof.
    intros R N X. pose proof (exact_3 F sq m1 m2 m12 R N) as R3. rewrite (couple_comp F sq m1 m2 m12 cexp c').
    rewrite (couple_comp F sq m1 m2 m12 cexp c).
    match goal with |- context [comp0 F sq m1 m2 m12 (_ * ?b0 + _ * ?b1, _)] => destruct (comp_back F sq m1 m2 m12 b0 b1 R3) as [-> ->] end.
    rewrite couple_comp. set (E := diag22 F sq m1 m2 m12). clearbody E.
    replace (cx_of (e_0 E) * (c + c')) with (cx_of (e_0 E) * c + cx_of (e_0 E) * c') by (apply cx_eq; cbn; ring).
    replace (cx_of (e_1 E) * (c + c')) with (cx_of (e_1 E) * c + cx_of (e_1 E) * c') by (apply cx_eq; cbn; ring).
    rewrite !X. f_equal; apply cx_eq; cbn; ring.
  Qed.
  Lemma couple_zero m1 m2 m12 w : exact_root F sq m1 m2 m12 -> exact_norm F sq m1 m2 m12 -> cexp 0 = 1 ->
    couple F sq cexp 0 m1 m2 m12 w = w.
  Proof.
    intros R N X. pose proof (exact_3 F sq m1 m2 m12 R N) as R3. rewrite couple_comp.
    replace (cx_of (e_0 (diag22 F sq m1 m2 m12)) * 0) with (0 : Cx F) by (apply cx_eq; cbn; ring).
    replace (cx_of (e_1 (diag22 F sq m1 m2 m12)) * 0) with (0 : Cx F) by (apply cx_eq; cbn; ring). rewrite X.
    rewrite (expand F sq m1 m2 m12 w R3) at 5. f_equal; apply cx_eq; cbn; ring.
  Qed.
  Lemma couple_back m1 m2 m12 c w : exact_root F sq m1 m2 m12 -> exact_norm F sq m1 m2 m12 ->
    (forall a b, cexp (a + b) = cexp a * cexp b) -> cexp 0 = 1 ->
    couple F sq cexp (- c) m1 m2 m12 (couple F sq cexp c m1 m2 m12 w) = w.
  Proof.
    intros R N X X0. rewrite couple_add by assumption. replace (- c + c) with (0 : Cx F) by (apply cx_eq; cbn; ring).
    apply couple_zero; assumption.
  Qed.
  (** at a point where the potentials are equal the sign of the coupling has no effect *)
  Lemma diag_sign m g : diag22 F sq m m (- g) = diag22 F sq m m g.
  Proof.
    assert (T : forall h, h <> 0 -> theta F m m h = 0).
    { intros h Z. unfold theta. field. split; [exact Z|exact (two_ne F)]. }
    assert (Rt : root F sq m m (- g) = root F sq m m g) by (unfold root; f_equal; ring).
    assert (Ev : evals F sq m m (- g) = evals F sq m m g) by (unfold evals; rewrite Rt; reflexivity).
    assert (Ng : g <> 0 -> - g <> 0) by (intros Z X; apply Z; transitivity (- - g); [ring|rewrite X; ring]).
    assert (Tn : g <> 0 -> tan F sq m m (- g) = tan F sq m m g) by (intros Z; unfold tan; rewrite !T by auto; reflexivity).
    unfold diag22. destruct (ocmp (- g) 0) as [[A|A]|A]; destruct (ocmp g 0) as [[B|B]|B]; try reflexivity;
      first [ exfalso; assert (Z : - g <> 0) by (intros X; rewrite X in A; exact (olt_irr F _ A)); apply Z; rewrite B; ring
            | exfalso; assert (Z : g <> 0) by (intros X; rewrite X in B; exact (olt_irr F _ B)); apply (Ng Z), A
            | assert (Z : g <> 0) by (intros X; rewrite X in B; exact (olt_irr F _ B)); rewrite Ev, (Tn Z); reflexivity ].
  Qed.
  Lemma couple_sign m g c w : couple F sq cexp c m m (- g) w = couple F sq cexp c m m g w.
  Proof. unfold couple. rewrite diag_sign. reflexivity. Qed.
End More.

(** ** Instances *)
From Coq Require Import QArith Qcanon Reals Lra.
From Verif Require Import RealField.

Lemma diag_orthonormal (F : ofld) (sq : F -> F) (m1 m2 m12 : F) : exact_root F sq m1 m2 m12 -> exact_norm F sq m1 m2 m12 ->
  let E := diag22 F sq m1 m2 m12 in
  (v_00 E * v_00 E + v_10 E * v_10 E = 1 /\ v_01 E * v_01 E + v_11 E * v_11 E = 1 /\ v_00 E * v_01 E + v_10 E * v_11 E = 0)%cr.
Proof. intros R N E. destruct (diag_orth F sq m1 m2 m12 (exact_3 F sq m1 m2 m12 R N)) as (A & B & C & _). auto. Qed.

Lemma sqrt_is (x : R) : (0 <= x)%R -> is_sqrt Ro x (sqrt x).
Proof. intros H. destruct (R_sqrt x H) as [P S]. split; [|exact S]. unfold ole. cbn. destruct P as [P|P]; [left; exact P|right; exact P]. Qed.
Lemma real_root (m1 m2 m12 : R) : exact_root Ro sqrt m1 m2 m12.
Proof.
  intros _. split; [|cbn zeta]; apply sqrt_is; cbn.
  - pose proof (Rle_0_sqr (m1 - m2)). pose proof (Rle_0_sqr m12). unfold Rsqr in *. nra.
  - match goal with |- (0 <= ?x * ?x + 1)%R => pose proof (Rle_0_sqr x) end. unfold Rsqr in *. lra.
Qed.
Lemma real_norm (m1 m2 m12 : R) : exact_norm Ro sqrt m1 m2 m12.
Proof. intros _ th t _. apply sqrt_is. cbn. pose proof (Rle_0_sqr t). unfold Rsqr in *. lra. Qed.
Lemma step_real (m1 m2 m12 l : R) (c : Cx Ro) (w : Cx Ro * Cx Ro) : m1 <> m2 \/ (0 <= m12)%R -> ceigen Ro m1 m2 m12 l w ->
  couple Ro sqrt Rcexp c m1 m2 m12 w = (cmul (Rcexp (cmul (@cx_of Ro l) c)) (fst w), cmul (Rcexp (cmul (@cx_of Ro l) c)) (snd w)).
Proof.
  intros H. apply (couple_eigen Ro sqrt m1 m2 m12 Rcexp c l w); [apply real_root|apply real_norm|].
  destruct H as [H|H]; [left; exact H|right]. cbn. lra.
Qed.
Lemma norm_real (m1 m2 m12 dt : R) (w : Cx Ro * Cx Ro) :
  norm2 Ro (couple Ro sqrt Rcexp (0, dt)%R m1 m2 m12 w) = norm2 Ro w.
Proof.
  apply couple_norm; [apply real_root|apply real_norm|]. intros e. unfold abs2, Rcexp. cbn.
  replace (e * 0 - 0 * dt)%R with 0%R by ring. rewrite exp_0.
  match goal with |- (1 * cos ?x * (1 * cos ?x) + 1 * sin ?x * (1 * sin ?x) = _)%R => pose proof (sin2_cos2 x) end.
  unfold Rsqr in *. cbn in *. lra.
Qed.
Lemma group_real (m1 m2 m12 : R) (c c' : Cx Ro) (w : Cx Ro * Cx Ro) :
  couple Ro sqrt Rcexp c m1 m2 m12 (couple Ro sqrt Rcexp c' m1 m2 m12 w) = couple Ro sqrt Rcexp (cadd c c') m1 m2 m12 w /\
  couple Ro sqrt Rcexp (copp c) m1 m2 m12 (couple Ro sqrt Rcexp c m1 m2 m12 w) = w.
Proof.
  split.
  - apply couple_add; [apply real_root|apply real_norm|exact Rcexp_add].
  - apply couple_back; [apply real_root|apply real_norm|exact Rcexp_add|exact Rcexp_0].
Qed.
Lemma degenerate_real (m g : R) (c : Cx Ro) (a : Cx Ro) : (0 <= g)%R ->
  couple Ro sqrt Rcexp c m m (- g)%R (a, a) = (cmul (Rcexp (cmul (@cx_of Ro (m + g)%R) c)) a, cmul (Rcexp (cmul (@cx_of Ro (m + g)%R) c)) a) /\
  couple Ro sqrt Rcexp c m m (- g)%R (a, copp a) =
    (cmul (Rcexp (cmul (@cx_of Ro (m - g)%R) c)) a, cmul (Rcexp (cmul (@cx_of Ro (m - g)%R) c)) (copp a)).
Proof.
  intros G. pose proof (fun w => couple_sign Ro sqrt Rcexp m g c w) as S. cbn [copp Ro o_f f_ring Rf Rr] in S. split.
  - rewrite (S (a, a)). apply (step_real m m g (m + g) c (a, a)); [right; exact G|]. destruct a as [x y]. split; apply cx_eq; cbn; ring.
  - rewrite (S (a, copp a)). apply (step_real m m g (m - g) c (a, copp a)); [right; exact G|]. destruct a as [x y]. split; apply cx_eq; cbn; ring.
Qed.
Lemma step_refuted : ~ (forall (m1 m2 m12 l : R) (c : Cx Ro) (w : Cx Ro * Cx Ro), ceigen Ro m1 m2 m12 l w ->
  couple Ro sqrt Rcexp c m1 m2 m12 w = (cmul (Rcexp (cmul (@cx_of Ro l) c)) (fst w), cmul (Rcexp (cmul (@cx_of Ro l) c)) (snd w))).
Proof.
  intros H. pose (one := (1%R, 0%R) : Cx Ro). pose (c := (0%R, (PI / 2)%R) : Cx Ro).
  specialize (H 0 0 (- (1)) (- (1)) c (one, one))%R.
  assert (W : ceigen Ro 0%R 0%R (- (1))%R (- (1))%R (one, one)) by (split; apply cx_eq; cbn; ring).
  specialize (H W). destruct (degenerate_real 0 1 c one) as [D _]; [lra|]. rewrite D in H.
  apply (f_equal (fun p => snd (fst p))) in H. unfold Rcexp in H. cbn in H.
  replace ((0 + 1) * (PI / 2) + 0 * 0)%R with (PI / 2)%R in H by ring. replace (- (1) * (PI / 2) + 0 * 0)%R with (- (PI / 2))%R in H by ring.
  replace ((0 + 1) * 0 - 0 * (PI / 2))%R with 0%R in H by ring. replace (- (1) * 0 - 0 * (PI / 2))%R with 0%R in H by ring.
  rewrite sin_neg, cos_neg, sin_PI2, cos_PI2, exp_0 in H. lra.
Qed.

(** in the rationals, with a root that is exact where it is used *)
Definition zq (z : Z) : Qc := Q2Qc (z # 1).
Definition sqQ (x : Qc) : Qc := if Qc_eq_dec x (zq 4) then zq 2 else if Qc_eq_dec x (zq 625) then zq 25
  else if Qc_eq_dec x (Q2Qc (625 # 576)) then Q2Qc (25 # 24) else if Qc_eq_dec x (Q2Qc (25 # 16)) then Q2Qc (5 # 4)
  else if Qc_eq_dec x (Q2Qc (25 # 9)) then Q2Qc (5 # 3) else zq 1.
Lemma is_sqrtQ (x s : Qc) : (Qcompare 0 s = Lt) -> (s * s = x)%Qc -> is_sqrt Qco x s.
Proof. intros P S. split; [left; exact P|exact S]. Qed.
Lemma rootQ1 : exact_root Qco sqQ (zq 0) (zq 0) (zq (-1)).
Proof.
  intros _. split.
  - replace (sqQ _) with (zq 2); [apply is_sqrtQ; [reflexivity|apply Qc_is_canon; vm_compute; reflexivity]|apply Qc_is_canon; vm_compute; reflexivity].
  - cbn zeta. replace (sqQ _) with (zq 1); [apply is_sqrtQ; [reflexivity|apply Qc_is_canon; vm_compute; reflexivity]|apply Qc_is_canon; vm_compute; reflexivity].
Qed.
Lemma rootQ2 : exact_root Qco sqQ (zq 0) (zq 7) (zq 12).
Proof.
  intros _. split.
  - replace (sqQ _) with (zq 25); [apply is_sqrtQ; [reflexivity|apply Qc_is_canon; vm_compute; reflexivity]|apply Qc_is_canon; vm_compute; reflexivity].
  - cbn zeta. replace (sqQ _) with (Q2Qc (25 # 24)); [apply is_sqrtQ; [reflexivity|apply Qc_is_canon; vm_compute; reflexivity]|apply Qc_is_canon; vm_compute; reflexivity].
Qed.
Lemma normQ2 : exact_norm Qco sqQ (zq 0) (zq 7) (zq 12).
Proof.
  intros _ th t T. assert (Th : th = Q2Qc (7 # 24)) by (apply Qc_is_canon; vm_compute; reflexivity). rewrite Th in T. clear Th th. cbn in T.
  assert (Z : ((t - Q2Qc (3 # 4)) * (t + Q2Qc (4 # 3)) = 0)%Qc).
  { replace ((t - Q2Qc (3 # 4)) * (t + Q2Qc (4 # 3)))%Qc with (t * t + (1 + 1) * Q2Qc (7 # 24) * t - 1)%Qc; [rewrite T; ring|].
    replace ((1 + 1) * Q2Qc (7 # 24))%Qc with (Q2Qc (4 # 3) - Q2Qc (3 # 4))%Qc by (apply Qc_is_canon; vm_compute; reflexivity).
    replace 1%Qc with (Q2Qc (4 # 3) * Q2Qc (3 # 4))%Qc by (apply Qc_is_canon; vm_compute; reflexivity). ring. }
  apply Qcmult_integral in Z. destruct Z as [Z|Z].
  - replace t with (Q2Qc (3 # 4)) by (transitivity (t - (t - Q2Qc (3 # 4)))%Qc; [ring|rewrite Z; ring]).
    replace (sqQ _) with (Q2Qc (5 # 4)); [apply is_sqrtQ; [reflexivity|apply Qc_is_canon; vm_compute; reflexivity]|apply Qc_is_canon; vm_compute; reflexivity].
  - replace t with (- Q2Qc (4 # 3))%Qc by (transitivity (t - (t + Q2Qc (4 # 3)))%Qc; [ring|rewrite Z; ring]).
    replace (sqQ _) with (Q2Qc (5 # 3)); [apply is_sqrtQ; [reflexivity|apply Qc_is_canon; vm_compute; reflexivity]|apply Qc_is_canon; vm_compute; reflexivity].
Qed.
Lemma eigen_refuted : ~ (forall (F : ofld) (sq : F -> F) (m1 m2 m12 : F), exact_root F sq m1 m2 m12 ->
  let E := diag22 F sq m1 m2 m12 in
  eigen F m1 m2 m12 (e_0 E) (v_00 E) (v_10 E) /\ eigen F m1 m2 m12 (e_1 E) (v_01 E) (v_11 E)).
Proof.
  intros H. destruct (H Qco sqQ _ _ _ rootQ1) as [[X _] _]. apply (f_equal this) in X. vm_compute in X. discriminate X.
Qed.
Lemma example_diag : let E := diag22 Qco sqQ (zq 0) (zq 7) (zq 12) in
  e_0 E = zq (-9) /\ e_1 E = zq 16 /\ v_00 E = Q2Qc (4 # 5) /\ v_10 E = Q2Qc (-3 # 5) /\ v_01 E = Q2Qc (3 # 5) /\ v_11 E = Q2Qc (4 # 5).
Proof. cbn zeta. repeat split; apply Qc_is_canon; vm_compute; reflexivity. Qed.
