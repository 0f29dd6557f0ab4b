(** Proofs about matrix operators read from files. *)
From Coq Require Import Ascii String List ZArith Lia Bool Arith Field.
From Verif Require Import Base Arrays Algebra Complex Ordered Model.Potential Spec.Potential Proofs.Potential Model.MatOp Spec.MatOp.
Import ListNotations.

Section Proofs.
  Variable F : ofld.
  Open Scope cr_scope.
  Add Ring FrMat : (cr_th F).
  Variable eig : nat -> list F -> list F.
  Variable junk : nat -> list F.
  Variable fs : str -> option (mfile F).
  Implicit Types (s : mop F) (p : mpars F) (d : list F).
  Notation mat_init := (mat_init F eig junk fs).
  Notation read_mat := (read_mat F eig junk fs).
  Notation low_ev := (low_ev F eig).

  Lemma shift_spec n d m : lowered n d m (shift n d m).
  Proof. clear eig junk fs.
    unfold lowered, shift. rewrite map_length, seq_length. split; [reflexivity|]. intros i j Hi Hj. unfold entry.
    assert (B : (j * n + i < n * n)%nat) by nia. set (f := fun k => _).
    rewrite (nth_indep _ 0 (f 0%nat)) by (rewrite map_length, seq_length; exact B). rewrite map_nth, seq_nth by exact B. unfold f. cbn [Nat.add].
    assert (Q : ((j * n + i) / n = j)%nat) by (rewrite Nat.add_comm, Nat.div_add, Nat.div_small by lia; reflexivity).
    assert (R : ((j * n + i) mod n = i)%nat) by (rewrite Nat.add_comm, Nat.mod_add, Nat.mod_small by lia; reflexivity).
    rewrite Q, R. reflexivity.
  Qed.
  Lemma lowered_0 n d : length d = (n * n)%nat -> lowered n d 0 d.
  Proof. intros L. split; [exact L|]. intros i j _ _. destruct (i =? j)%nat; [|reflexivity]. ring. Qed.
  Lemma lowered_unique n d m a b : lowered n d m a -> lowered n d m b -> a = b.
  Proof. clear eig junk fs.
    intros [La Ha] [Lb Hb]. apply (nth_ext _ _ 0 0); [congruence|]. intros k Hk. rewrite La in Hk.
    assert (n <> 0)%nat by lia.
    pose proof (Nat.div_mod k n H). pose proof (Nat.mod_upper_bound k n H). assert (k / n < n)%nat by (apply Nat.div_lt_upper_bound; lia).
    specialize (Ha (k mod n)%nat (k / n)%nat). specialize (Hb (k mod n)%nat (k / n)%nat). unfold entry in Ha, Hb.
    replace (k / n * n + k mod n)%nat with k in Ha, Hb by lia. rewrite Ha, Hb by lia. reflexivity.
  Qed.

  (** reading a whole file *)
  Lemma read_ok s name f n d : fs name = Some f -> whole f n d ->
    exists s1, read_mat s name = (s1, Ok tt) /\ mo_n s1 = n /\ mo_d s1 = d /\ mo_init s1 = mo_init s /\ mo_ev s1 = mo_ev s /\
      mo_par s1 = in_effect f (mo_par s) /\ mo_x s1 = mo_x s /\ mo_xt s1 = mo_xt s /\
      mo_valid s1 = match f with MRaw _ _ => false | MStrm _ _ => mo_valid s end.
  Proof.
    intros E (N & L & W). unfold Model.MatOp.read_mat. rewrite E. destruct f as [h x|k x].
    - destruct W as (-> & S & Q). unfold init_size. rewrite S, Q.
      rewrite (proj2 (Z.eqb_neq (Z.of_nat n) 0)), (proj2 (Z.ltb_ge (Z.of_nat n) 0)) by lia. rewrite Nat2Z.id.
      set (s2 := set_valid (newsize F junk (set_par s h) n) false).
      assert (A : mo_n s2 = n /\ mo_init s2 = mo_init s /\ mo_ev s2 = mo_ev s /\ mo_par s2 = h /\ mo_x s2 = mo_x s /\ mo_xt s2 = mo_xt s /\ mo_valid s2 = false).
      { unfold s2, newsize. cbn [set_par mo_n]. destruct (n =? mo_n s)%nat eqn:B; cbn; [apply Nat.eqb_eq in B|]; auto 10. }
      destruct A as (A1 & A2 & A3 & A4 & A5 & A6 & A7). rewrite A1. rewrite (proj2 (Nat.ltb_ge (length d) (n * n))) by lia.
      eexists. split; [reflexivity|]. cbn [set_d mo_n mo_d mo_init mo_ev mo_par mo_x mo_xt mo_valid]. rewrite firstn_all2 by lia. auto 10.
    - destruct W as (-> & ->). rewrite (proj2 (Nat.ltb_ge (length d) (n * n))) by lia.
      eexists. split; [reflexivity|]. cbn [set_d mo_n mo_d mo_init mo_ev mo_par mo_x mo_xt mo_valid]. rewrite firstn_all2 by lia.
      unfold newsize. destruct (n =? mo_n s)%nat eqn:B; cbn; [apply Nat.eqb_eq in B|]; auto 10.
  Qed.

  (** the eigenvalues the code believes in after reading *)
  Definition believed (f : mfile F) (n : nat) d s : list F :=
    match f with MStrm _ _ => if mo_valid s then match mo_ev s with Some l => l | None => [] end else eig n d | MRaw _ _ => eig n d end.
  Lemma load s p name f n d vmin m : mp_file p = Some name -> mo_init s = false -> fs name = Some f -> whole f n d ->
    (mp_zero (in_effect f p) = true -> exists l r, believed f n d s = l :: r /\ vmin l = Ok m) -> (mp_zero (in_effect f p) = false -> m = 0) ->
    exists s', mat_init vmin s p = (s', Ok tt) /\ mo_n s' = n /\ lowered n d m (mo_d s') /\ mo_init s' = false /\ mo_valid s' = false /\ mo_par s' = in_effect f p /\
      (mp_zero (in_effect f p) = false -> mo_ev s' = mo_ev s /\ mo_x s' = mo_x s /\ mo_xt s' = mo_xt s) /\
      (mp_zero (in_effect f p) = true -> mo_ev s' = Some (believed f n d s)).
  Proof.
    intros P I E W HT HF. unfold Model.MatOp.mat_init. rewrite P. cbn [set_par mo_init]. rewrite I.
    destruct (read_ok (set_init (set_par s p) true) name f n d E W) as (s1 & R & N1 & D1 & I1 & V1 & P1 & X1 & T1 & U1).
    cbn [set_init set_par mo_par mo_init mo_ev mo_x mo_xt mo_valid] in *. rewrite R. rewrite P1.
    destruct (mp_zero (in_effect f p)) eqn:Z.
    - destruct (HT eq_refl) as (l & r & Hl & Hv). unfold Model.MatOp.low_ev.
      assert (G : (if mo_valid s1 then s1 else init_dspace F eig s1) = s1 /\ mo_ev s1 = Some (l :: r) /\ mo_valid s1 = true \/
                  (if mo_valid s1 then s1 else init_dspace F eig s1) = init_dspace F eig s1 /\ eig n d = l :: r).
      { destruct f as [h x|k x]; cbn [believed] in Hl; rewrite U1.
        - right. split; [reflexivity|exact Hl].
        - destruct (mo_valid s); [left|right; split; [reflexivity|exact Hl]]. split; [reflexivity|]. rewrite V1. destruct (mo_ev s) as [e|]; [|discriminate Hl]. rewrite Hl. split; reflexivity. }
      assert (E2 : forall s2, (if mo_valid s1 then s1 else init_dspace F eig s1) = s2 -> mo_ev s2 = Some (l :: r) /\ mo_n s2 = n /\ mo_d s2 = d /\ mo_par s2 = in_effect f p).
      { intros s2 <-. destruct G as [(-> & A & _)|(-> & A)]; [rewrite N1, D1, P1; auto|]. unfold init_dspace. cbn [mo_ev mo_n mo_d mo_par]. rewrite N1, D1, A, P1. auto. }
      destruct (E2 _ eq_refl) as (A1 & A2 & A3 & A4). rewrite A1. cbn [bind]. rewrite Hv. eexists. split; [reflexivity|]. cbn [set_valid set_init set_d mo_n mo_d mo_init mo_valid mo_par mo_ev].
      rewrite A2, A3, A4. split; [reflexivity|]. split; [apply shift_spec|]. repeat (split; [reflexivity|]). split; [discriminate|]. intros _. rewrite Hl. exact A1.
    - rewrite (HF eq_refl). eexists. split; [reflexivity|]. cbn [set_valid set_init mo_n mo_d mo_init mo_valid mo_par mo_ev mo_x mo_xt]. rewrite N1, D1, V1, X1, T1, P1.
      split; [reflexivity|]. split; [apply lowered_0, (proj1 (proj2 W))|]. repeat (split; [reflexivity|]). split; [auto|discriminate].
  Qed.

  Lemma low_after s l r : mo_valid s = false -> eig (mo_n s) (mo_d s) = l :: r -> snd (low_ev s) = Ok l.
  Proof. intros V E. unfold Model.MatOp.low_ev. rewrite V. cbn [snd init_dspace mo_ev]. rewrite E. reflexivity. Qed.
  Lemma last_in {A} (l : list A) : forall x y, In (last (x :: l) y) (x :: l).
  Proof. induction l as [|b l IH]; intros x y; [left; reflexivity|]. right. exact (IH b y). Qed.

  Lemma fold_lsum (g : nat -> Cx F) l : forall b, fold_left (fun b j => cadd b (g j)) l b = cadd b (lsum g l).
  Proof.
    induction l as [|a l IH]; intros b; cbn [fold_left lsum]; [rewrite (Ring_theory.Radd_comm (cr_th (Cx F))); symmetry; apply (Ring_theory.Radd_0_l (cr_th (Cx F)))|].
    rewrite IH. symmetry. apply (Ring_theory.Radd_assoc (cr_th (Cx F))).
  Qed.
  Lemma mat_vec_spec n d psi i : (i < n)%nat -> nth_error (mat_vec n d psi) i = Some (lsum (fun j => cx_scale (entry n d i j) (nth j psi c0)) (seq 0 n)).
  Proof.
    intros Hi. unfold mat_vec.
    assert (S : nth_error (seq 0 n) i = Some i) by (rewrite (nth_error_nth' (seq 0 n) 0%nat) by (rewrite seq_length; exact Hi); rewrite seq_nth by exact Hi; reflexivity).
    rewrite (map_nth_error _ i _ S). f_equal. rewrite fold_lsum. unfold entry. apply (Ring_theory.Radd_0_l (cr_th (Cx F))).
  Qed.
  Lemma scale_scale (a b : F) (z : Cx F) : cx_scale a (cx_scale b z) = cx_scale (a * b) z.
  Proof. destruct z. unfold cx_scale. cbn. apply cx_eq; cbn; ring. Qed.

  Lemma half_le (x y : F) : ole (x + x) (y + y) -> ole x y.
  Proof.
    intros H. destruct (ocmp x y) as [[A|A]|A]; [left; exact A|right; exact A|]. exfalso.
    pose proof (ole_add2 F y x y x (or_introl A) (or_introl A)) as B. pose proof (olt_add F y x y A) as C. pose proof (olt_add F y x x A) as D.
    assert (X : olt (y + y) (x + x)). { apply (olt_tr F _ (x + y)); [exact C|]. replace (x + y : F) with (y + x : F) by ring. exact D. }
    destruct H as [H|H]; [exact (asym F _ _ H X)|rewrite H in X; exact (olt_irr F _ X)].
  Qed.
  Lemma diff_nonneg (a b : F) : ole a b -> ole 0 (b - a).
  Proof. intros H. apply (ole_add F _ _ (- a)) in H. replace (a + - a : F) with (0 : F) in H by ring. replace (b + - a : F) with (b - a : F) in H by ring. exact H. Qed.
  Lemma nonneg_diff (a b : F) : ole 0 (b - a) -> ole a b.
  Proof. intros H. apply (ole_add F _ _ a) in H. replace (0 + a) with a in H by ring. replace (b - a + a) with b in H by ring. exact H. Qed.
  Lemma prod_nonneg (a b : F) : ole 0 a -> ole 0 b -> ole 0 (a * b).
  Proof. intros A B. replace (0 : F) with (0 * b : F) by ring. apply ole_mul; assumption. Qed.
  Lemma prod_high (a b x y : F) : between (- a) x a -> between (- b) y b -> ole (x * y) (a * b).
  Proof.
    intros [A1 A2] [B1 B2]. apply half_le, nonneg_diff.
    replace (a * b + a * b - (x * y + x * y) : F) with ((a - x) * (y - - b) + (x - - a) * (b - y) : F) by ring.
    replace (0 : F) with (0 + 0 : F) by ring. apply ole_add2; apply prod_nonneg; apply diff_nonneg; assumption.
  Qed.
  Lemma between_opp (a x : F) : between (- a) x a -> between (- a) (- x) a.
  Proof.
    intros [A B]. split; apply nonneg_diff.
    - replace (- x - - a : F) with (a - x : F) by ring. apply diff_nonneg, B.
    - replace (a - - x : F) with (x - - a : F) by ring. apply diff_nonneg, A.
  Qed.
  Lemma prod_between (a b x y : F) : between (- a) x a -> between (- b) y b -> between (- (a * b)) (x * y) (a * b).
  Proof.
    intros A B. split; [|apply prod_high; assumption]. pose proof (prod_high a b (- x) y (between_opp _ _ A) B) as H. apply nonneg_diff.
    apply diff_nonneg in H. replace (x * y - - (a * b) : F) with (a * b - - x * y : F) by ring. exact H.
  Qed.

  (** ** dipoles *)
  Variable lfs : str -> option (list F * F).
  Notation mdip_start := (mdip_start F eig junk fs lfs).
  Lemma start_ok p name f n d L E dt c t : mp_file p = Some name -> fs name = Some f -> whole f n d -> mp_zero (in_effect f p) = false ->
    mp_empty p = false -> mp_laser p = Some L -> lfs L = Some (E, dt) -> fits c (E, dt) ->
    exists D, mdip_start p c t = Ok D /\ mo_n (md_op D) = n /\ mo_d (md_op D) = d /\ md_laser D = mkLaser E dt (mscale_of (in_effect f p)) /\ md_clock D = Some (mkClock (cl_dt c) (cl_steps c) t) /\ mo_ev (md_op D) = None.
  Proof.
    intros P Ef W Z Em PL EL [S1 S2]. cbn [fst snd] in S1, S2. unfold Model.MatOp.mdip_start, mdip_init. cbn [new_mdip md_init md_laser md_op md_clock orb]. rewrite Em, PL, EL. cbn [la_scale].
    destruct (load new_mop p name f n d (dip_min (mkLaser E dt c1)) 0 P eq_refl Ef W ltac:(intros X; rewrite Z in X; discriminate X) ltac:(reflexivity)) as (s & -> & N & Lw & I & V & Pa & K & _).
    unfold mdip_clock. cbn [md_laser md_op md_init md_clock la_dt la_data]. rewrite <- S1. unfold same. destruct (ocmp dt dt) as [[A|_]|A]; try (exfalso; exact (olt_irr F _ A)).
    cbn [negb orb]. rewrite (proj2 (Nat.ltb_ge (length E) (cl_steps c))) by exact S2. rewrite Pa. eexists. split; [reflexivity|]. cbn [md_op md_laser md_clock].
    destruct (K Z) as (K1 & _). split; [exact N|]. split; [|split; [|split; [reflexivity|exact K1]]].
    - apply (lowered_unique n d 0 _ _ Lw). apply lowered_0. exact (proj1 (proj2 W)).
    - unfold mscale_of. destruct (mp_scale (in_effect f p)); reflexivity.
  Qed.
  Lemma apply_ok (D : mdip F) n d e dest psi : mo_n (md_op D) = n -> mo_d (md_op D) = d -> mfield D = Ok e -> length psi = n ->
    exists r, mdip_apply D dest psi = Ok r /\ product n d (- e) psi r.
  Proof.
    intros N Dd E L. unfold mdip_apply, mat_apply. rewrite E, N, Dd, L, Nat.eqb_refl. cbn [bind]. eexists. split; [reflexivity|]. split.
    - rewrite map_length. unfold mat_vec. rewrite map_length, seq_length. reflexivity.
    - intros i Hi. rewrite (map_nth_error _ i _ (mat_vec_spec n d psi i Hi)). f_equal. f_equal. ring.
  Qed.
  Lemma valid_ok p name f n d c t D : mp_file p = Some name -> fs name = Some f -> whole f n d -> mp_zero (in_effect f p) = false ->
    mdip_start p c t = Ok D -> mo_valid (md_op D) = false.
  Proof.
    intros P Ef W Z. unfold Model.MatOp.mdip_start, mdip_init. cbn [new_mdip md_init md_laser md_op md_clock orb]. intros H.
    match type of H with (let '(_, _) := (let '(_, _) := ?a in _) in _) = _ => destruct a as [l r] end. destruct r as [u| |]; [|discriminate H|discriminate H].
    destruct (load new_mop p name f n d (dip_min l) 0 P eq_refl Ef W ltac:(intros X; rewrite Z in X; discriminate X) ltac:(reflexivity)) as (s & E & _ & _ & _ & V & _).
    rewrite E in H. unfold mdip_clock in H. cbn [md_op md_laser md_init md_clock] in H.
    match type of H with context [if ?b then _ else _] => destruct b end; [discriminate H|]. injection H as <-. exact V.
  Qed.
  Lemma bounds_ok p name f n d l r L E dt c t e D x : mp_file p = Some name -> fs name = Some f -> whole f n d -> mp_zero (in_effect f p) = false ->
    mp_empty p = false -> mscale_of (in_effect f p) = 1 -> mp_laser p = Some L -> lfs L = Some (E, dt) -> fits c (E, dt) -> mdip_start p c t = Ok D -> mfield D = Ok e ->
    eig n d = l :: r -> (forall y, In y (l :: r) -> between (- last (l :: r) l) y (last (l :: r) l)) ->
    (forall y z, highest E z -> In y E -> between (- z) y z) -> In x (l :: r) ->
    exists hi, mdip_emax F eig D = Ok hi /\ between (- hi) (- (e * x)) hi.
  Proof.
    intros P Ef W Z Em Sc PL EL Fi St Fe G B1 B2 Ix. pose proof (valid_ok p name f n d c t D P Ef W Z St) as V.
    destruct (start_ok p name f n d L E dt c t P Ef W Z Em PL EL Fi) as (D' & S & N & Dd & La & Cl & Ev). rewrite S in St. injection St as ->.
    unfold mfield in Fe. rewrite Cl, La in Fe. cbn [la_data la_scale cl_step] in Fe. destruct (nth_error E t) as [y|] eqn:Hy; [|discriminate Fe].
    assert (Ee : e = y). { rewrite Sc in Fe. injection Fe as <-. ring. } subst e.
    assert (NE : E <> []) by (intros ->; destruct t; discriminate Hy). destruct (vec_max_ok F E NE) as (z & Vz & Hz).
    exists (last (l :: r) l * z). split.
    - unfold mdip_emax, high_ev. rewrite V. cbn [init_dspace mo_ev snd]. rewrite N, Dd, G, La. cbn [la_data bind]. rewrite Vz. reflexivity.
    - apply between_opp. replace (y * x : F) with (x * y : F) by ring. apply prod_between; [exact (B1 x Ix)|exact (B2 y z Hz (nth_error_In _ _ Hy))].
  Qed.
  Lemma nth_ext_error {A} (l m : list A) : length l = length m -> (forall i, (i < length l)%nat -> nth_error l i = nth_error m i) -> l = m.
  Proof.
    revert m. induction l as [|a l IH]; intros [|b m] L H; try discriminate; [reflexivity|]. f_equal.
    - specialize (H 0%nat ltac:(cbn; lia)). injection H as ->. reflexivity.
    - apply IH; [injection L; auto|]. intros i I. apply (H (S i)). cbn. lia.
  Qed.
  Lemma dipole_exponents (D : mdip F) a e : mfield D = Ok e ->
    mdip_exponents F eig D a = Ok (map (fun x => cx_scale (- (e * x)) a) (match mo_ev (md_op D) with Some l => l | None => eig (mo_n (md_op D)) (mo_d (md_op D)) end)) /\
    (forall x dest psi, length psi = mo_n (md_op D) -> product (mo_n (md_op D)) (mo_d (md_op D)) 1 psi (map (cx_scale x) psi) ->
      mdip_apply D dest psi = Ok (map (cx_scale (- (e * x))) psi)).
  Proof.
    intros H. split.
    - unfold mdip_exponents. rewrite H. cbn [bind]. f_equal. unfold exponents. destruct (mo_ev (md_op D)) eqn:Ev; cbn [init_dspace mo_ev]; rewrite ?Ev;
        apply map_ext; intros x; destruct a as [u v]; unfold cx_scale; cbn [fst snd]; f_equal; ring.
    - intros x dest psi L P. destruct (apply_ok D (mo_n (md_op D)) (mo_d (md_op D)) e dest psi eq_refl eq_refl H L) as (r & A & B). rewrite A. f_equal.
      destruct P as [P1 P2], B as [B1 B2]. apply nth_ext_error; [rewrite map_length; congruence|]. intros i I. rewrite B1 in I. rewrite (B2 i I).
      specialize (P2 i I). rewrite nth_error_map in *. destruct (nth_error psi i) as [z|]; [|discriminate P2]. cbn [option_map] in *. apply (f_equal (fun o => match o with Some q => q | None => z end)) in P2. cbv beta iota in P2.
      f_equal. destruct z as [u v]. match goal with |- cx_scale _ ?q = _ => destruct q as [q1 q2] end. unfold cx_scale in *. cbn [fst snd] in *. pose proof (f_equal fst P2) as E1. pose proof (f_equal snd P2) as E2. cbn [fst snd] in E1, E2.
      f_equal; [transitivity (- (e * (1 * q1)))|transitivity (- (e * (1 * q2)))]; try ring; rewrite <- ?E1, <- ?E2; ring.
  Qed.
End Proofs.
