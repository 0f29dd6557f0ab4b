From Coq Require Import List ZArith Lia Bool Arith QArith Qcanon Field.
From Verif Require Import Base Arrays Algebra Complex Model.Grid Spec.Grid Proofs.Grid Model.Gobble Spec.Gobble Proofs.Derive.
Import ListNotations.
Open Scope Z_scope.

(** ** numbers *)
Open Scope Qc_scope.
Lemma Qc_lt_irr (a : Qc) : ~ a < a. Proof. intros H. apply Qclt_not_eq in H. apply H. reflexivity. Qed.
Lemma Qc_pos_neq (a : Qc) : 0 < a -> a <> 0. Proof. intros H ->. exact (Qc_lt_irr _ H). Qed.
Lemma Qc_mul_pos (a b : Qc) : 0 < a -> 0 < b -> 0 < a * b.
Proof. intros H K. replace 0 with (0 * b) by ring. apply Qcmult_lt_compat_r; assumption. Qed.
Lemma Qc_inv_pos (a : Qc) : 0 < a -> 0 < / a.
Proof.
  intros H. pose proof (Qc_inv_nonneg a H) as K. apply Qcle_lt_or_eq in K. destruct K as [K|K]; [exact K|]. exfalso.
  pose proof (Qcmult_inv_r a (Qc_pos_neq _ H)) as E. rewrite <- K in E. replace (a * 0) with 0 in E by ring. discriminate.
Qed.
Lemma Qc_add_pos (a b : Qc) : 0 < a -> 0 <= b -> 0 < a + b.
Proof. intros H K. apply Qclt_le_trans with (a + 0); [replace (a + 0) with a by ring; exact H|]. apply Qcplus_le_compat; [apply Qcle_refl|exact K]. Qed.
Lemma pow_mul (a b : Qc) n : (a * b) ^ n = a ^ n * b ^ n.
Proof. induction n; cbn; [ring|]. rewrite IHn. ring. Qed.
Lemma pow_inv (a : Qc) n : a <> 0 -> (/ a) ^ n = / a ^ n.
Proof.
  intros H. induction n; cbn; [reflexivity|]. rewrite IHn. field. split; [|exact H].
  clear IHn. induction n; cbn; [discriminate|]. intros E. apply Qcmult_integral in E. destruct E; auto.
Qed.
Lemma pow_neq (a : Qc) n : a <> 0 -> a ^ n <> 0.
Proof. intros H. induction n; cbn; [discriminate|]. intros E. apply Qcmult_integral in E. destruct E; auto. Qed.
Lemma pow_div (a b : Qc) n : b <> 0 -> (a / b) ^ n = a ^ n / b ^ n.
Proof. intros H. unfold Qcdiv. rewrite pow_mul, pow_inv by exact H. reflexivity. Qed.
Lemma pow_add (a : Qc) n k : a ^ (n + k) = a ^ n * a ^ k.
Proof. induction n; cbn; [ring|]. rewrite IHn. ring. Qed.
Lemma pow_even (a : Qc) n : a ^ (n + n) = a ^ n * a ^ n. Proof. apply pow_add. Qed.
Definition even (m : nat) := exists n, m = (n + n)%nat /\ (0 < n)%nat.
Lemma even_nonneg m (a : Qc) : even m -> 0 <= a ^ m.
Proof. intros (n & -> & _). rewrite pow_even. apply Qc_sq_nonneg. Qed.
Lemma even_pos m (a : Qc) : even m -> a <> 0 -> 0 < a ^ m.
Proof.
  intros E H. destruct (Qcle_lt_or_eq _ _ (even_nonneg m a E)) as [K|K]; [exact K|]. exfalso. symmetry in K. revert K. apply pow_neq, H.
Qed.
Lemma even_zero m : even m -> 0 ^ m = 0.
Proof. intros (n & -> & H). destruct n; [lia|]. cbn. ring. Qed.
Lemma qz_0 : qz 0 = 0. Proof. apply (ofZ_0 Qcf). Qed.
Lemma pow_nonneg m (a : Qc) : 0 <= a -> 0 <= a ^ m.
Proof. intros H. induction m; cbn; [discriminate|]. apply Qc_mul_nonneg; assumption. Qed.
Lemma pow_pos m (a : Qc) : 0 < a -> 0 < a ^ m.
Proof. intros H. induction m; cbn; [reflexivity|]. apply Qc_mul_pos; assumption. Qed.
Lemma pow_lt m (a b : Qc) : (0 < m)%nat -> 0 <= a -> a < b -> a ^ m < b ^ m.
Proof.
  intros Hm Ha H. assert (Hb : 0 < b) by (apply Qcle_lt_trans with a; assumption). induction m; [lia|]. cbn. destruct m; [cbn; replace (a * 1) with a by ring; replace (b * 1) with b by ring; exact H|].
  apply Qcle_lt_trans with (a * b ^ S m).
  - rewrite (Qcmult_comm a), (Qcmult_comm a). apply Qcmult_le_compat_r; [|exact Ha]. apply Qclt_le_weak, IHm. lia.
  - apply Qcmult_lt_compat_r; [|exact H]. apply pow_pos, Hb.
Qed.

(** the filters in terms of the coordinates *)
Lemma low_value x0 dx cut m i : dx <> 0 -> cut <> x0 -> even m ->
  1 / (1 + (qz i / ((cut - x0) / dx)) ^ m) = left_pass x0 cut m (x0 + qz i * dx).
Proof.
  intros Hd Hc Hm. unfold left_pass. assert (N : cut - x0 <> 0). { intros E. apply Hc. replace cut with (cut - x0 + x0) by ring. rewrite E. ring. }
  replace (x0 + qz i * dx - x0) with (qz i * dx) by ring. replace (qz i / ((cut - x0) / dx)) with (qz i * dx / (cut - x0)) by (field; auto).
  rewrite pow_div by exact N. set (A := (cut - x0) ^ m). set (B := (qz i * dx) ^ m).
  assert (PA : 0 < A) by (apply even_pos; assumption). assert (PB : 0 <= B) by (apply even_nonneg; assumption).
  pose proof (Qc_pos_neq _ PA). pose proof (Qc_pos_neq _ (Qc_add_pos _ _ PA PB)). field. auto.
Qed.
Lemma high_value x0 dx cut m i : dx <> 0 -> qz i <> 0 -> cut <> x0 -> even m ->
  1 / (1 + ((cut - x0) / dx / qz i) ^ m) = right_pass x0 cut m (x0 + qz i * dx).
Proof.
  intros Hd Hi Hc Hm. unfold right_pass. assert (N : cut - x0 <> 0). { intros E. apply Hc. replace cut with (cut - x0 + x0) by ring. rewrite E. ring. }
  replace (x0 + qz i * dx - x0) with (qz i * dx) by ring. replace ((cut - x0) / dx / qz i) with ((cut - x0) / (qz i * dx)) by (field; auto).
  assert (N2 : qz i * dx <> 0) by (intros E; apply Qcmult_integral in E; destruct E; auto).
  rewrite pow_div by exact N2. set (A := (cut - x0) ^ m). set (B := (qz i * dx) ^ m).
  assert (PA : 0 < A) by (apply even_pos; assumption). assert (PB : 0 < B) by (apply even_pos; assumption).
  pose proof (Qc_pos_neq _ PB). pose proof (Qc_pos_neq _ (Qc_add_pos _ _ PA (Qclt_le_weak _ _ PB))). field. auto.
Qed.
Lemma right_first x0 cut m : cut <> x0 -> even m -> right_pass x0 cut m x0 = 0.
Proof.
  intros Hc Hm. unfold right_pass. replace (x0 - x0) with 0 by ring. rewrite even_zero by exact Hm. unfold Qcdiv. ring.
Qed.
Lemma left_bounds x0 cut m x : cut <> x0 -> even m -> 0 < left_pass x0 cut m x /\ left_pass x0 cut m x <= 1.
Proof.
  intros Hc Hm. unfold left_pass. assert (N : cut - x0 <> 0). { intros E. apply Hc. replace cut with (cut - x0 + x0) by ring. rewrite E. ring. }
  set (A := (cut - x0) ^ m). set (B := (x - x0) ^ m). assert (PA : 0 < A) by (apply even_pos; assumption). assert (PB : 0 <= B) by (apply even_nonneg; assumption).
  pose proof (Qc_add_pos _ _ PA PB) as P. pose proof (Qc_inv_pos _ P) as I. pose proof (Qc_pos_neq _ P). split.
  - unfold Qcdiv. apply Qc_mul_pos; assumption.
  - apply Qc_diff. replace (1 - A / (A + B)) with (B * / (A + B)) by (field; auto). apply Qc_mul_nonneg; [exact PB|apply Qclt_le_weak, I].
Qed.
Lemma pass_sum x0 cut m x : cut <> x0 -> even m -> left_pass x0 cut m x + right_pass x0 cut m x = 1.
Proof.
  intros Hc Hm. unfold left_pass, right_pass. assert (N : cut - x0 <> 0). { intros E. apply Hc. replace cut with (cut - x0 + x0) by ring. rewrite E. ring. }
  set (A := (cut - x0) ^ m). set (B := (x - x0) ^ m). assert (PA : 0 < A) by (apply even_pos; assumption). assert (PB : 0 <= B) by (apply even_nonneg; assumption).
  pose proof (Qc_pos_neq _ (Qc_add_pos _ _ PA PB)). field. auto.
Qed.
Lemma right_bounds x0 cut m x : cut <> x0 -> even m -> 0 <= right_pass x0 cut m x /\ right_pass x0 cut m x < 1.
Proof.
  intros Hc Hm. pose proof (pass_sum x0 cut m x Hc Hm) as S. destruct (left_bounds x0 cut m x Hc Hm) as [L1 L2].
  replace (right_pass x0 cut m x) with (1 - left_pass x0 cut m x) by (rewrite <- S; ring). split.
  - apply Qcle_minus_iff in L2. exact L2.
  - apply Qclt_minus_iff. replace (1 + - (1 - left_pass x0 cut m x)) with (left_pass x0 cut m x) by ring. exact L1.
Qed.
(** one half exactly at the cut-off, more on the side that passes *)
Lemma left_half x0 cut m x : x0 < cut -> x0 <= x -> even m ->
  (x < cut -> 1 < (1 + 1) * left_pass x0 cut m x) /\ (x = cut -> (1 + 1) * left_pass x0 cut m x = 1) /\
  (cut < x -> (1 + 1) * left_pass x0 cut m x < 1).
Proof.
  intros Hc Hx Hm. assert (Nc : cut <> x0) by (intros ->; exact (Qc_lt_irr _ Hc)). unfold left_pass.
  assert (Dc : 0 < cut - x0) by (apply Qclt_minus_iff in Hc; exact Hc). assert (Dx : 0 <= x - x0) by (apply Qcle_minus_iff in Hx; exact Hx).
  assert (Pm : (0 < m)%nat) by (destruct Hm as (n & -> & Hn); lia).
  set (A := (cut - x0) ^ m). set (B := (x - x0) ^ m). assert (PA : 0 < A) by (apply pow_pos, Dc). assert (PB : 0 <= B) by (apply pow_nonneg, Dx).
  pose proof (Qc_add_pos _ _ PA PB) as P. pose proof (Qc_inv_pos _ P) as I. pose proof (Qc_pos_neq _ P) as NP. split; [|split].
  - intros H. assert (K : B < A). { apply pow_lt; auto. apply Qclt_minus_iff. apply Qclt_minus_iff in H. replace (cut - x0 + - (x - x0)) with (cut + - x) by ring. exact H. }
    apply Qclt_minus_iff. replace ((1 + 1) * (A / (A + B)) + - (1)) with ((A + - B) * / (A + B)) by (field; auto). apply Qc_mul_pos; [apply Qclt_minus_iff in K; exact K|exact I].
  - intros ->. unfold B, A in *. field. exact NP.
  - intros H. assert (K : A < B). { apply pow_lt; auto. apply Qclt_le_weak; auto. apply Qclt_minus_iff. apply Qclt_minus_iff in H. replace (x - x0 + - (cut - x0)) with (x + - cut) by ring. exact H. }
    apply Qclt_minus_iff. replace (1 + - ((1 + 1) * (A / (A + B)))) with ((B + - A) * / (A + B)) by (field; auto). apply Qc_mul_pos; [apply Qclt_minus_iff in K; exact K|exact I].
Qed.

(** truncation *)
Lemma trunc_neg (q : Qc) : (trunc q < 0)%Z <-> q <= - (1).
Proof.
  unfold trunc, Qcle, Qle. destruct q as [[n d] C]. cbn. rewrite Z.mul_1_r.
  pose proof (Z.quot_rem' n (Zpos d)) as E. pose proof (Z.rem_bound_abs n (Zpos d)) as B. pose proof (Z.rem_nonneg n (Zpos d)). pose proof (Z.rem_nonpos n (Zpos d)).
  split; intros K; nia.
Qed.
Lemma qz_val z : Qnum (qz z) = z /\ Qden (qz z) = 1%positive.
Proof.
  assert (E : qz z = Q2Qc (inject_Z z)).
  { unfold qz. induction z using Z.peano_ind.
    - apply Qc_is_canon. reflexivity.
    - unfold Z.succ. rewrite (ofZ_add Qcf), IHz, (ofZ_1 Qcf). apply Qc_is_canon. change (Qeq (Qred (Qplus (Qred (inject_Z z)) 1)) (Qred (inject_Z (z + 1)))). rewrite !Qred_correct, inject_Z_plus. reflexivity.
    - replace (Z.pred z) with (z - 1)%Z by lia. rewrite (ofZ_sub Qcf), IHz, (ofZ_1 Qcf). apply Qc_is_canon.
      change (Qeq (Qred (Qplus (Qred (inject_Z z)) (Qred (Qopp 1)))) (Qred (inject_Z (z + - 1)))). rewrite !Qred_correct, inject_Z_plus. reflexivity. }
  rewrite E. change (this (Q2Qc (inject_Z z))) with (Qred (inject_Z z)).
  assert (R : Qred (inject_Z z) = inject_Z z). { apply Qred_identity. cbn. apply Z.gcd_1_r. }
  rewrite R. split; reflexivity.
Qed.
Lemma trunc_big (q : Qc) N : (0 <= N)%Z -> (N < trunc q)%Z <-> qz (N + 1) <= q.
Proof.
  intros HN. destruct (qz_val (N + 1)) as [E1 E2]. unfold Qcle, Qle. rewrite E1, E2. unfold trunc. destruct q as [[n d] C]. cbn. rewrite Z.mul_1_r.
  pose proof (Z.quot_rem' n (Zpos d)) as E. pose proof (Z.rem_bound_abs n (Zpos d)) as B. pose proof (Z.rem_nonneg n (Zpos d)). pose proof (Z.rem_nonpos n (Zpos d)).
  split; intros K; nia.
Qed.
Lemma div_le (a b dx : Qc) : 0 < dx -> a / dx <= b <-> a <= b * dx.
Proof.
  intros H. pose proof (Qc_pos_neq _ H) as N. split; intros K.
  - replace a with (a / dx * dx) by (field; exact N). apply Qcmult_le_compat_r; [exact K|apply Qclt_le_weak, H].
  - replace b with (b * dx / dx) by (field; exact N). unfold Qcdiv. apply Qcmult_le_compat_r; [exact K|apply Qclt_le_weak, Qc_inv_pos, H].
Qed.
Lemma le_div (a b dx : Qc) : 0 < dx -> b <= a / dx <-> b * dx <= a.
Proof.
  intros H. pose proof (Qc_pos_neq _ H) as N. split; intros K.
  - replace a with (a / dx * dx) by (field; exact N). apply Qcmult_le_compat_r; [exact K|apply Qclt_le_weak, H].
  - replace b with (b * dx / dx) by (field; exact N). unfold Qcdiv. apply Qcmult_le_compat_r; [exact K|apply Qclt_le_weak, Qc_inv_pos, H].
Qed.
Lemma shift_le (a b c : Qc) : a - c <= b <-> a <= b + c.
Proof.
  split; intros H; apply Qcle_minus_iff in H; apply Qcle_minus_iff.
  - replace (b + c + - a) with (b + - (a - c)) by ring. exact H.
  - replace (b + - (a - c)) with (b + c + - a) by ring. exact H.
Qed.
Lemma le_shift (a b c : Qc) : b <= a - c <-> b + c <= a.
Proof.
  split; intros H; apply Qcle_minus_iff in H; apply Qcle_minus_iff.
  - replace (a + - (b + c)) with (a - c + - b) by ring. exact H.
  - replace (a - c + - b) with (a + - (b + c)) by ring. exact H.
Qed.
Lemma bad_outside (q : geom) d c : 0 < q_dx q d -> (0 <= nth d (q_ds q) 0)%Z ->
  bad_edge (edge c q d) (size_of (q_ds q) d) = true <-> outside (q_ds q) (q_x0 q) (q_dx q) d c.
Proof.
  intros H HN. unfold bad_edge, outside, edge. rewrite Bool.orb_true_iff, !Z.ltb_lt, trunc_neg, (trunc_big _ (size_of (q_ds q) d)) by exact HN.
  rewrite div_le, le_div, shift_le, le_shift by exact H.
  replace (- (1) * q_dx q d + q_x0 q d) with (q_x0 q d - q_dx q d) by ring.
  replace (qz (size_of (q_ds q) d + 1) * q_dx q d + q_x0 q d) with (q_x0 q d + (@ofZ Qcf (nth d (q_ds q) 0%Z) + 1) * q_dx q d).
  - tauto.
  - unfold qz, size_of. rewrite (ofZ_add Qcf), (ofZ_1 Qcf). change (@cadd Qcf) with Qcplus. change (@c1 Qcf) with 1. ring.
Qed.
Close Scope Qc_scope.

(** ** the loop over the dimensions *)
Definition ntab (ds : list Z) (t : list num) (f : list Z -> num) : Prop :=
  zlen t = points ds /\ forall cs, in_box ds cs -> rd t (flat ds cs) = Ok (f cs).

Section Loop.
  Variable g : gobbler.
  Notation q := (b_grid g).
  Notation ds := (q_ds (b_grid g)).
  Hypothesis Pos : Forall (fun d => 0 < d) ds.

  Lemma ntab_const x : ntab ds (repeat x (Z.to_nat (points ds))) (fun _ => x).
  Proof.
    assert (P : 0 < points ds) by (apply points_pos; exact Pos). split.
    - unfold zlen. rewrite repeat_length. lia.
    - intros cs B. pose proof (flat_bound _ _ B) as Hb.
      destruct (proj1 (rd_ok (repeat x (Z.to_nat (points ds))) (flat ds cs))) as [y Ey].
      { unfold zlen. rewrite repeat_length. lia. }
      rewrite Ey. f_equal. unfold rd in Ey. destruct (0 <=? _); [|discriminate]. destruct (nth_error _ _) eqn:E; [|discriminate].
      injection Ey as ->. apply nth_error_In in E. apply repeat_spec in E. exact E.
  Qed.
  Lemma ntab_axis (op : num -> num -> num) d (f : Z -> num) t t' h : (d < length ds)%nat ->
    ntab ds t h -> axis_result op ds d (filter_vec f (nth d ds 0)) t t' ->
    ntab ds t' (fun cs => op (h cs) (f (nth d cs 0))).
  Proof.
    intros Hd [A B] [C E]. split; [congruence|]. intros cs Hc. apply E; auto. unfold filter_vec.
    pose proof (box_nth ds cs d Hc Hd) as Hb. rewrite rd_map, rd_upto by lia. reflexivity.
  Qed.
  Lemma ntab_ext t f h : ntab ds t f -> (forall cs, in_box ds cs -> f cs = h cs) -> ntab ds t h.
  Proof. intros [A B] H. split; [exact A|]. intros cs Hc. rewrite <- (H cs Hc). apply B, Hc. Qed.

  Definition lfac (d : nat) (cs : list Z) : num :=
    match b_lp g d with Some c => bw_low (edge c q d) (b_order g) (nth d cs 0) | None => Some 1%Qc end.
  Definition rone : num := Some (if b_nip g then 0 else 1)%Qc.
  Definition rop : num -> num -> num := if b_nip g then nadd else nmul.
  Definition rfac (d : nat) (cs : list Z) : num :=
    match b_rp g d with Some c => bw_high (edge c q d) (b_order g) (nth d cs 0) | None => rone end.
  Definition okcut (d : nat) (o : option Qc) : bool := match o with Some c => negb (bad_edge (edge c q d) (size_of ds d)) | None => true end.
  Lemma nmul_1 x : nmul x (Some 1%Qc) = x.
  Proof. destruct x; [|reflexivity]. cbn. f_equal. ring. Qed.
  Lemma rop_1 x : rop x rone = x.
  Proof. unfold rop, rone. destruct (b_nip g); [|apply nmul_1]. destruct x; [|reflexivity]. cbn. f_equal. ring. Qed.

  Definition J (d : nat) (v : vview num) (f : list Z -> num) : Prop := exists a seen, vinv ds seen a v /\
    (forall e, In e seen -> exists p, a = Some p) /\ (forall e, In e seen -> (e <= d)%nat) /\ (In d seen -> a = Some d) /\
    ntab ds (v_data v) f.
  Lemma J_op d v f op h : (d < length ds)%nat -> J d v f ->
    exists v', (let* v := view_active v d in let* v := view_op op v (filter_vec h (nth d ds 0)) in Ok (v, true)) = Ok (v', true) /\
      J d v' (fun cs => op (f cs) (h (nth d cs 0))).
  Proof.
    intros Hd (a & seen & I & SA & Le & St & T).
    destruct (view_act_ok ds seen a d v Pos Hd I SA) as (v1 & E1 & I1 & D1).
    { intros Hs p ->. specialize (St Hs). congruence. }
    rewrite E1. cbn [bind]. assert (L : zlen (filter_vec h (nth d ds 0)) = nth d ds 0).
    { unfold filter_vec, zlen. rewrite map_length, upto_length. pose proof (nth_pos ds d Pos Hd) as N. unfold size_of in N. lia. }
    destruct (view_op_ok ds (d :: seen) d v1 op _ Pos I1 L) as (v2 & E2 & I2 & A2).
    exists v2. rewrite E2. split; [reflexivity|]. exists (Some d), (d :: seen). split; [exact I2|]. split; [intros; eauto|]. split; [|split; [reflexivity|]].
    - intros e [<-|He]; [lia|auto].
    - rewrite D1 in A2. exact (ntab_axis op d h _ _ f Hd T A2).
  Qed.
  Lemma left_ok d v f : (d < length ds)%nat -> J d v f ->
    exists v', left_step g v d = Ok (v', okcut d (b_lp g d)) /\ (okcut d (b_lp g d) = true -> J d v' (fun cs => nmul (f cs) (lfac d cs))).
  Proof.
    intros Hd HJ. unfold left_step, okcut, lfac. destruct (b_lp g d) as [c|].
    - destruct (bad_edge _ _); cbn [negb]; [exists v; split; [reflexivity|discriminate]|].
      destruct (J_op d v f nmul (bw_low (edge c q d) (b_order g)) Hd HJ) as (v' & E & J'). exists v'. split; [exact E|]. intros _. exact J'.
    - exists v. split; [reflexivity|]. intros _. destruct HJ as (a & seen & I & SA & Le & St & T). exists a, seen. do 4 (split; [assumption|]).
      apply (ntab_ext _ _ _ T). intros cs _. rewrite nmul_1. reflexivity.
  Qed.
  Lemma right_ok d v f : (d < length ds)%nat -> J d v f ->
    exists v', right_step g v d = Ok (v', okcut d (b_rp g d)) /\ (okcut d (b_rp g d) = true -> J d v' (fun cs => rop (f cs) (rfac d cs))).
  Proof.
    intros Hd HJ. unfold right_step, okcut, rfac. destruct (b_rp g d) as [c|].
    - destruct (bad_edge _ _); cbn [negb]; [exists v; split; [reflexivity|discriminate]|].
      destruct (J_op d v f rop (bw_high (edge c q d) (b_order g)) Hd HJ) as (v' & E & J'). exists v'. split; [exact E|]. intros _. exact J'.
    - exists v. split; [reflexivity|]. intros _. destruct HJ as (a & seen & I & SA & Le & St & T). exists a, seen. do 4 (split; [assumption|]).
      apply (ntab_ext _ _ _ T). intros cs _. rewrite rop_1. reflexivity.
  Qed.
  Definition okdim (d : nat) : bool := okcut d (b_lp g d) && okcut d (b_rp g d).
  Definition acc (cs : list Z) (x : num) (d : nat) : num := rop (nmul x (lfac d cs)) (rfac d cs).
  Lemma loop_ok n d v f : (d + n <= length ds)%nat -> J d v f ->
    exists v', dim_loop g v (seq d n) = Ok (v', forallb okdim (seq d n)) /\
      (forallb okdim (seq d n) = true -> ntab ds (v_data v') (fun cs => fold_left (acc cs) (seq d n) (f cs))).
  Proof.
    revert d v f. induction n as [|n IH]; intros d v f Hn HJ; cbn [seq dim_loop forallb fold_left].
    - exists v. split; [reflexivity|]. intros _. destruct HJ as (? & ? & ? & ? & ? & ? & T). exact T.
    - destruct (left_ok d v f) as (v1 & E1 & J1); [lia|exact HJ|]. rewrite E1. cbn [bind fst snd]. unfold okdim at 1 3.
      destruct (okcut d (b_lp g d)); cbn [negb andb]; [|exists v1; split; [reflexivity|discriminate]].
      destruct (right_ok d v1 _ ltac:(lia) (J1 eq_refl)) as (v2 & E2 & J2). rewrite E2. cbn [bind fst snd].
      destruct (okcut d (b_rp g d)); cbn [negb andb]; [|exists v2; split; [reflexivity|discriminate]].
      specialize (J2 eq_refl). destruct (IH (S d) v2 (fun cs => acc cs (f cs) d) ltac:(lia)) as (v3 & E3 & T3).
      { destruct J2 as (a & seen & I & SA & Le & St & T). exists a, seen. split; [exact I|]. split; [exact SA|]. split; [|split; [|exact T]].
        - intros e He. apply Le in He. lia.
        - intros He. apply Le in He. lia. }
      exists v3. split; [exact E3|]. intros H. exact (T3 H).
  Qed.
  Lemma fill_ok : ds <> [] -> exists t, fill g = Ok (with_tab g t, forallb okdim (seq 0 (length ds))) /\
    (forallb okdim (seq 0 (length ds)) = true ->
     ntab ds t (fun cs => nmul (fold_left (acc cs) (seq 0 (length ds)) (Some (if b_nip g then 0 else 1)%Qc)) (Some (b_gain g)))).
  Proof.
    intros NE. unfold fill. rewrite grid_size_spec by exact NE. set (x := Some (if b_nip g then 0 else 1)%Qc).
    destruct (loop_ok (length ds) 0 (new_view (repeat x (Z.to_nat (points ds))) ds) (fun _ => x)) as (v & E & T); [lia| |].
    { exists None, []. split; [apply new_vinv; apply (ntab_const x)|]. do 2 (split; [intros ? []|]). split; [intros []|]. apply (ntab_const x). }
    rewrite E. cbn [bind fst snd]. destruct (forallb _ _); [|eexists; split; [reflexivity|discriminate]].
    eexists. split; [reflexivity|]. intros _. specialize (T eq_refl). destruct (Qc_eq_dec (b_gain g) 1) as [->|N].
    - apply (ntab_ext _ _ _ T). intros cs _. rewrite nmul_1. reflexivity.
    - destruct T as [T1 T2]. split; [unfold zlen in *; rewrite map_length; exact T1|]. intros cs Hc. rewrite rd_map, (T2 cs Hc). reflexivity.
  Qed.
End Loop.

(** ** the state after both Init functions *)
Record valid (p : gparams) (q : geom) : Prop := {
  va_order : match p_order p with Some n => 1 <= n | None => True end;
  va_dims : match p_dims p with Some n => n = Z.of_nat (length (q_ds q)) | None => True end;
  va_len : (1 <= length (q_ds q) <= 4)%nat;
  va_pos : Forall (fun d => 0 < d) (q_ds q);
  va_dx : forall d, (d < length (q_ds q))%nat -> (0 < q_dx q d)%Qc }.
Definition start (p : gparams) (q : geom) : outcome (gobbler * bool) :=
  let* g := init_params new_gobbler p in init_psi g (Some q).
Definition expo (p : gparams) : nat := Z.to_nat (2 * match p_order p with Some n => n | None => 20 end).
Definition is_nip (p : gparams) : bool := match p_nip p with Some b => b | None => false end.
Definition gain_of (p : gparams) : Qc := match p_gain p with Some x => x | None => 1%Qc end.
Definition is_residue (p : gparams) : bool := match p_residue p with Some b => b | None => false end.

Lemma expo_even p q : valid p q -> even (expo p).
Proof.
  intros V. pose proof (va_order p q V) as O. unfold expo. destruct (p_order p) as [n|].
  - exists (Z.to_nat n). lia.
  - exists 20%nat. split; [reflexivity|lia].
Qed.

Definition own (q : geom) (f : nat -> option Qc) : nat -> option Qc := fun i => if (i <? length (q_ds q))%nat then f i else None.
Definition started (p : gparams) (q : geom) (t : list num) : gobbler :=
  mkGob (own q (p_lp p)) (own q (p_rp p)) (match p_order p with Some n => n | None => 20 end) (gain_of p) (is_nip p)
        (Some (is_residue p)) false (negb (is_nip p)) q t p.
Lemma repeat_zero n : (0 < n)%nat -> grid_size (repeat 0 n) = 0.
Proof.
  intros H. rewrite grid_size_spec by (destruct n; [lia|discriminate]). destruct n; [lia|reflexivity].
Qed.
Lemma start_fill p q : valid p q -> start p q = fill (started p q []).
Proof.
  intros V. pose proof (va_len p q V) as Ln. unfold start, init_params.
  assert (Eo : match p_order p with Some n => if n <? 1 then Throw else Ok n | None => Ok 20 end = Ok (match p_order p with Some n => n | None => 20 end)).
  { pose proof (va_order p q V) as O. destruct (p_order p); [|reflexivity]. destruct (Z.ltb_spec z 1); [lia|reflexivity]. }
  rewrite Eo. cbn [bind].
  set (gr := match p_dims p with Some n => set_dim n | None => Ok (b_grid new_gobbler) end).
  assert (G : exists r, gr = Ok r /\ grid_size (q_ds r) = 0 /\
     ((length (q_ds r) = 0 /\ p_dims p = None \/ length (q_ds r) = length (q_ds q)))%nat).
  { unfold gr. pose proof (va_dims p q V) as D. destruct (p_dims p) as [n|].
    - unfold set_dim. destruct (Z.ltb_spec 4 n); [lia|]. destruct (Z.ltb_spec n 0); [lia|]. cbn [orb]. eexists. split; [reflexivity|]. cbn [q_ds]. split.
      + apply repeat_zero. lia.
      + right. rewrite repeat_length. lia.
    - eexists. split; [reflexivity|]. split; [reflexivity|]. left. split; reflexivity. }
  destruct G as (r & -> & S0 & Lr). cbn [bind init_psi b_grid b_params]. rewrite S0. cbn [Z.ltb Z.compare].
  assert (F : exists r', (if (length (q_ds r) =? 0)%nat then set_dim (Z.of_nat (length (q_ds q))) else Ok r) = Ok r' /\ length (q_ds r') = length (q_ds q)).
  { destruct Lr as [[-> _]|Er].
    - cbn [Nat.eqb]. unfold set_dim. destruct (Z.ltb_spec 4 (Z.of_nat (length (q_ds q)))); [lia|]. destruct (Z.ltb_spec (Z.of_nat (length (q_ds q))) 0); [lia|].
      cbn [orb]. eexists. split; [reflexivity|]. cbn [q_ds]. rewrite repeat_length. lia.
    - destruct (Nat.eqb_spec (length (q_ds r)) 0); [lia|]. exists r. split; [reflexivity|exact Er]. }
  destruct F as (r' & -> & Lr'). cbn [bind]. rewrite Lr', Nat.eqb_refl. cbn [negb].
  unfold started, own. cbn [b_lp b_rp b_order b_gain b_nip b_residue b_conj b_herm b_tab b_params new_gobbler].
  fold (is_nip p). replace (if is_nip p then false else true) with (negb (is_nip p)) by (destruct (is_nip p); reflexivity). reflexivity.
Qed.

Section Values.
  Variable p : gparams.
  Variable q : geom.
  Hypothesis V : valid p q.
  Notation ds := (q_ds q).
  Notation m := (expo p).
  Let g0 := started p q [].
  Notation lw := (lweight (q_x0 q) (q_dx q) (p_lp p) m).
  Notation rw := (rweight (q_x0 q) (q_dx q) (p_rp p) m).
  Definition off (d : nat) (c : Qc) : Prop := c <> q_x0 q d.

  Lemma lfac_value cs d : (d < length ds)%nat -> all_cuts ds (p_lp p) (p_rp p) off -> lfac g0 d cs = Some (lw cs d).
  Proof.
    intros Hd A. unfold lfac, lweight. cbn [g0 started b_lp b_order b_grid]. unfold own. destruct (Nat.ltb_spec d (length ds)); [|lia].
    destruct (p_lp p d) as [c|] eqn:Ec; [|reflexivity]. assert (N : c <> q_x0 q d) by (apply (A d c Hd); auto).
    pose proof (Qc_pos_neq _ (va_dx p q V d Hd)) as Nd. unfold bw_low. destruct (Qc_eq_dec (edge c q d) 0) as [E|E].
    - exfalso. apply N. unfold edge in E. replace c with ((c - q_x0 q d) / q_dx q d * q_dx q d + q_x0 q d)%Qc by (field; exact Nd). rewrite E. ring.
    - f_equal. apply low_value; auto. exact (expo_even p q V).
  Qed.
  Lemma rfac_value cs d : (d < length ds)%nat -> all_cuts ds (p_lp p) (p_rp p) off ->
    rfac g0 d cs = Some (rw (if is_nip p then 0 else 1)%Qc cs d).
  Proof.
    intros Hd A. unfold rfac, rweight. cbn [g0 started b_rp b_order b_grid]. unfold own. destruct (Nat.ltb_spec d (length ds)); [|lia].
    destruct (p_rp p d) as [c|] eqn:Ec; [|reflexivity]. assert (N : c <> q_x0 q d) by (apply (A d c Hd); auto).
    pose proof (Qc_pos_neq _ (va_dx p q V d Hd)) as Nd. unfold bw_high. destruct (Z.eqb_spec (nth d cs 0) 0) as [Ei|Ei].
    - destruct (Qc_eq_dec (edge c q d) 0) as [E|E].
      + exfalso. apply N. unfold edge in E. replace c with ((c - q_x0 q d) / q_dx q d * q_dx q d + q_x0 q d)%Qc by (field; exact Nd). rewrite E. ring.
      + f_equal. unfold at_. rewrite Ei, (ofZ_0 Qcf). change (@c0 Qcf) with 0%Qc. replace (q_x0 q d + 0 * q_dx q d)%Qc with (q_x0 q d) by ring.
        symmetry. apply right_first; [exact N|exact (expo_even p q V)].
    - f_equal. apply high_value; auto; [apply ofZ_nonzero; exact Ei|exact (expo_even p q V)].
  Qed.

  Lemma fold_window cs n d x : (d + n <= length ds)%nat -> all_cuts ds (p_lp p) (p_rp p) off -> is_nip p = false ->
    fold_left (acc g0 cs) (seq d n) (Some x) = Some (x * qprod (fun d => lw cs d * rw 1 cs d) (seq d n))%Qc.
  Proof.
    intros Hn A Np. revert d x Hn. induction n as [|n IH]; intros d x Hn; cbn [seq fold_left qprod]; [f_equal; ring|].
    unfold acc at 2. rewrite lfac_value, rfac_value by (assumption || lia). unfold rop. cbn [g0 started b_nip]. rewrite Np. cbn [nmul nlift].
    rewrite IH by lia. f_equal. ring.
  Qed.
  Lemma fold_barrier cs n d x : (d + n <= length ds)%nat -> all_cuts ds (p_lp p) (p_rp p) off -> is_nip p = true ->
    fold_left (acc g0 cs) (seq d n) (Some x) =
    Some (x * qprod (lw cs) (seq d n) + qsum (fun e => rw 0 cs e * qprod (lw cs) (seq (S e) (d + n - S e))) (seq d n))%Qc.
  Proof.
    intros Hn A Np. revert d x Hn. induction n as [|n IH]; intros d x Hn; cbn [seq fold_left qprod qsum]; [f_equal; ring|].
    unfold acc at 2. rewrite lfac_value, rfac_value by (assumption || lia). unfold rop. cbn [g0 started b_nip]. rewrite Np. cbn [nmul nadd nlift].
    rewrite IH by lia. f_equal. replace (d + S n - S d)%nat with n by lia. replace (S d + n)%nat with (d + S n)%nat by lia. ring.
  Qed.

  Lemma cut_ok d : (d < length ds)%nat -> okdim g0 d = true <->
    (forall c, p_lp p d = Some c \/ p_rp p d = Some c -> ~ outside ds (q_x0 q) (q_dx q) d c).
  Proof.
    intros Hd. assert (K : forall c, bad_edge (edge c q d) (size_of ds d) = true <-> outside ds (q_x0 q) (q_dx q) d c).
    { intros c. apply bad_outside; [apply (va_dx p q V), Hd|]. pose proof (nth_pos ds d (va_pos p q V) Hd) as N. unfold size_of in N. lia. }
    assert (K' : forall o, okcut g0 d o = true <-> forall c, o = Some c -> ~ outside ds (q_x0 q) (q_dx q) d c).
    { intros [c|]; unfold okcut; cbn [g0 started b_grid].
      - rewrite Bool.negb_true_iff. rewrite <- Bool.not_true_iff_false, K. split; [intros H c' [= <-]; exact H|intros H; apply H; reflexivity].
      - split; [discriminate|reflexivity]. }
    unfold okdim. cbn [g0 started b_lp b_rp]. rewrite Bool.andb_true_iff, !K'. unfold own. destruct (Nat.ltb_spec d (length ds)); [|lia].
    split; [intros [H1 H2] c [E|E]; auto|]. intros H1. split; intros c E; apply H1; auto.
  Qed.
  Lemma cuts_ok : forallb (okdim g0) (seq 0 (length ds)) = true <->
    all_cuts ds (p_lp p) (p_rp p) (fun d c => ~ outside ds (q_x0 q) (q_dx q) d c).
  Proof.
    rewrite forallb_forall. split.
    - intros H d c Hd E. apply (proj1 (cut_ok d Hd)); [|exact E]. apply H. apply in_seq. lia.
    - intros H d Hd. apply in_seq in Hd. apply cut_ok; [lia|]. intros c E. apply (H d c); [lia|exact E].
  Qed.

  (** the result of the two Init functions *)
  Lemma start_result : exists t b, start p q = Ok (started p q t, b) /\ 
    (b = true <-> all_cuts ds (p_lp p) (p_rp p) (fun d c => ~ outside ds (q_x0 q) (q_dx q) d c)) /\
    (b = true -> all_cuts ds (p_lp p) (p_rp p) off ->
       gtab ds t (fun cs => gain_of p * if is_nip p then barrier_code ds (q_x0 q) (q_dx q) (p_lp p) (p_rp p) m cs
                                        else window ds (q_x0 q) (q_dx q) (p_lp p) (p_rp p) m cs)%Qc).
  Proof.
    rewrite (start_fill p q V). destruct (fill_ok g0 (va_pos p q V)) as (t & E & T).
    { pose proof (va_len p q V) as L. intros X. cbn [g0 started b_grid] in X. rewrite X in L. cbn in L. lia. }
    fold g0. exists t, (forallb (okdim g0) (seq 0 (length ds))). split; [exact E|]. split; [exact cuts_ok|].
    intros B A. destruct (T B) as [T1 T2]. split; [exact T1|]. intros cs Hc. etransitivity; [exact (T2 cs Hc)|]. change (b_nip g0) with (is_nip p). change (q_ds (b_grid g0)) with ds. change (b_gain g0) with (gain_of p).
    f_equal. destruct (is_nip p) eqn:Np.
    - rewrite (fold_barrier cs (length ds) 0) by (assumption || lia). unfold barrier_code, dims. cbn [nmul nlift]. f_equal.
      change (0 + length ds)%nat with (length ds). ring.
    - rewrite (fold_window cs (length ds) 0) by (assumption || lia). unfold window, dims. cbn [nmul nlift]. f_equal. ring.
  Qed.
End Values.

(** ** bounds *)
Section Bounds.
  Variable p : gparams.
  Variable q : geom.
  Hypothesis V : valid p q.
  Notation ds := (q_ds q).
  Notation lw := (lweight (q_x0 q) (q_dx q) (p_lp p) (expo p)).
  Notation rw := (rweight (q_x0 q) (q_dx q) (p_rp p) (expo p)).
  Hypothesis A : all_cuts ds (p_lp p) (p_rp p) (off q).
  Open Scope Qc_scope.
  Lemma lw_bounds cs d : (d < length ds)%nat -> 0 <= lw cs d /\ lw cs d <= 1.
  Proof.
    intros Hd. unfold lweight. destruct (p_lp p d) as [c|] eqn:E; [|split; discriminate].
    destruct (left_bounds (q_x0 q d) c (expo p) (at_ (q_x0 q) (q_dx q) d cs)) as [B1 B2]; [apply (A d c Hd); auto|exact (expo_even p q V)|].
    split; [apply Qclt_le_weak, B1|exact B2].
  Qed.
  Lemma rw_bounds x cs d : (d < length ds)%nat -> 0 <= x -> x <= 1 -> 0 <= rw x cs d /\ rw x cs d <= 1.
  Proof.
    intros Hd X0 X1. unfold rweight. destruct (p_rp p d) as [c|] eqn:E; [|split; assumption].
    destruct (right_bounds (q_x0 q d) c (expo p) (at_ (q_x0 q) (q_dx q) d cs)) as [B1 B2]; [apply (A d c Hd); auto|exact (expo_even p q V)|].
    split; [exact B1|apply Qclt_le_weak, B2].
  Qed.
  Lemma mul_bounds a b : 0 <= a /\ a <= 1 -> 0 <= b /\ b <= 1 -> 0 <= a * b /\ a * b <= 1.
  Proof.
    intros [A0 A1] [B0 B1]. split; [apply Qc_mul_nonneg; assumption|]. apply Qcle_trans with (1 * b).
    - apply Qcmult_le_compat_r; assumption.
    - replace (1 * b) with b by ring. exact B1.
  Qed.
  Lemma prod_bounds {B} (f : B -> Qc) l : (forall a, In a l -> 0 <= f a /\ f a <= 1) -> 0 <= qprod f l /\ qprod f l <= 1.
  Proof.
    induction l as [|a l IH]; intros H; cbn [qprod]; [split; discriminate|]. apply mul_bounds; [apply H; left; reflexivity|].
    apply IH. intros b Hb. apply H. right. exact Hb.
  Qed.
  Lemma window_bounds cs : 0 <= window ds (q_x0 q) (q_dx q) (p_lp p) (p_rp p) (expo p) cs /\
    window ds (q_x0 q) (q_dx q) (p_lp p) (p_rp p) (expo p) cs <= 1.
  Proof.
    unfold window, dims. apply prod_bounds. intros d Hd. apply in_seq in Hd. apply mul_bounds; [apply lw_bounds; lia|].
    apply rw_bounds; [lia|discriminate|discriminate].
  Qed.
  Lemma barrier_nonneg cs : 0 <= barrier_code ds (q_x0 q) (q_dx q) (p_lp p) (p_rp p) (expo p) cs.
  Proof.
    unfold barrier_code, dims. assert (H : forall l (f : nat -> Qc), (forall d, In d l -> 0 <= f d) -> 0 <= qsum f l).
    { induction l as [|a l IH]; intros f H; cbn [qsum]; [discriminate|]. replace 0 with (0 + 0) by ring.
      apply Qcplus_le_compat; [apply H; left; reflexivity|apply IH; intros; apply H; right; assumption]. }
    apply H. intros d Hd. apply in_seq in Hd. apply Qc_mul_nonneg.
    - apply rw_bounds; [lia|discriminate|discriminate].
    - apply prod_bounds. intros e He. apply in_seq in He. apply lw_bounds. lia.
  Qed.
  (** one right pass only: the bound holds *)
  Lemma barrier_one cs d0 : (forall d, (d < length ds)%nat -> d <> d0 -> p_rp p d = None) ->
    barrier_code ds (q_x0 q) (q_dx q) (p_lp p) (p_rp p) (expo p) cs <= 1.
  Proof.
    intros One. unfold barrier_code, dims.
    assert (H : forall l (f : nat -> Qc), NoDup l -> (forall d, In d l -> d <> d0 -> f d = 0) -> (forall d, In d l -> 0 <= f d /\ f d <= 1) -> qsum f l <= 1).
    { induction l as [|a l IH]; intros f ND Z B; cbn [qsum]; [discriminate|]. inversion ND as [|? ? Na ND']; subst. destruct (Nat.eq_dec a d0) as [->|Ne].
      - assert (S0 : qsum f l = 0).
        { assert (Z' : forall d, In d l -> f d = 0) by (intros d Hd; apply Z; [right; exact Hd|intros ->; exact (Na Hd)]).
          clear - Z'. induction l as [|b l IH]; cbn [qsum]; [reflexivity|]. rewrite (Z' b), IH; [ring| |left; reflexivity]. intros d Hd. apply Z'. right. exact Hd. }
        rewrite S0. replace (f d0 + 0) with (f d0) by ring. apply B. left. reflexivity.
      - rewrite (Z a); [|left; reflexivity|exact Ne]. replace (0 + qsum f l) with (qsum f l) by ring. apply IH; auto.
        + intros d Hd. apply Z. right. exact Hd.
        + intros d Hd. apply B. right. exact Hd. }
    apply H.
    - apply seq_NoDup.
    - intros d Hd Ne. apply in_seq in Hd. unfold rweight. rewrite (One d) by (lia || exact Ne). ring.
    - intros d Hd. apply in_seq in Hd. apply mul_bounds.
      + apply rw_bounds; [lia|discriminate|discriminate].
      + apply prod_bounds. intros e He. apply in_seq in He. apply lw_bounds. lia.
  Qed.
  Lemma barrier_right cs : (forall d, (d < length ds)%nat -> p_lp p d = None) ->
    barrier_code ds (q_x0 q) (q_dx q) (p_lp p) (p_rp p) (expo p) cs = barrier ds (q_x0 q) (q_dx q) (p_rp p) (expo p) cs.
  Proof.
    intros N. unfold barrier_code, barrier, dims. assert (H : forall l (f h : nat -> Qc), (forall d, In d l -> f d = h d) -> qsum f l = qsum h l).
    { induction l as [|a l IH]; intros f h H; cbn [qsum]; [reflexivity|]. rewrite (H a), (IH f h); auto; [intros; apply H; right; assumption|left; reflexivity]. }
    apply H. intros d Hd. apply in_seq in Hd.
    assert (P : forall n e, (e + n <= length ds)%nat -> qprod (lw cs) (seq e n) = 1).
    { induction n as [|n IH]; intros e He; cbn [seq qprod]; [reflexivity|]. rewrite IH by lia. unfold lweight. rewrite N by lia. ring. }
    rewrite P by lia. ring.
  Qed.
End Bounds.

(** ** application *)
Open Scope Qc_scope.
Lemma gtab_finite ds t f : Forall (fun d => (0 < d)%Z) ds -> gtab ds t f -> exists w, t = map Some w /\ length w = length t /\
  forall x, In x w -> exists cs, in_box ds cs /\ x = f cs.
Proof.
  intros Pos [L T]. assert (K : forall x, In x t -> exists cs, in_box ds cs /\ x = Some (f cs)).
  { intros x Hx. apply In_nth_error in Hx. destruct Hx as [k Hk]. assert (Bk : (k < length t)%nat) by (apply nth_error_Some; congruence).
    destruct (flat_surj ds (Z.of_nat k) Pos) as (cs & Hc & Ek). { unfold zlen in L. lia. }
    exists cs. split; [exact Hc|]. specialize (T cs Hc). rewrite Ek in T. unfold rd in T. destruct (Z.leb_spec 0 (Z.of_nat k)); [|lia].
    rewrite Nat2Z.id, Hk in T. congruence. }
  clear L T. induction t as [|x t IH].
  - exists []. split; [reflexivity|]. split; [reflexivity|intros x []].
  - destruct IH as (w & -> & Lw & B). { intros y Hy. apply K. right. exact Hy. }
    destruct (K x) as (cs & Hc & ->); [left; reflexivity|]. exists (f cs :: w). split; [reflexivity|]. split; [cbn; rewrite map_length; reflexivity|].
    intros y [<-|Hy]; [eauto|auto].
Qed.

(** the diagonal of the operator *)
Definition symbol (g : gobbler) (w : Qc) : Cx Qcf := if b_nip g then (0, if b_conj g then w else - w) else (w, 0).
Lemma zip_map {A B C D} (f : A -> B -> C) (h : D -> B) a b : zip f a (map h b) = zip (fun x y => f x (h y)) a b.
Proof. revert b. induction a as [|x a IH]; intros [|y b]; cbn; try reflexivity. rewrite IH. reflexivity. Qed.
Lemma apply_to_ok g w psi : b_tab g = map Some w -> length psi = length w ->
  apply_to g psi = Ok (map Some (diag_mul (map (symbol g) w) psi)).
Proof.
  intros E L. unfold apply_to. rewrite E. unfold zlen. rewrite map_length, L, Z.eqb_refl. f_equal. rewrite zip_map. clear E.
  revert psi L. induction w as [|x w IH]; intros [|a psi] L; cbn [zip map diag_mul]; try discriminate; [reflexivity|]. injection L as L.
  rewrite IH by exact L. f_equal. unfold apply_to_at, symbol, sgn. f_equal. apply cx_eq; destruct (b_nip g), (b_conj g); destruct a; cbn; ring.
Qed.
Lemma apply_in_ok g w psi : b_tab g = map Some w -> length psi = length w ->
  apply_in g psi = Ok (map Some (diag_mul (map (symbol g) w) psi)).
Proof.
  intros E L. unfold apply_in. rewrite E. unfold zlen. rewrite map_length, L, Z.eqb_refl. f_equal. rewrite zip_map. clear E.
  revert psi L. induction w as [|x w IH]; intros [|a psi] L; cbn [zip map diag_mul]; try discriminate; [reflexivity|]. injection L as L.
  rewrite IH by exact L. f_equal. unfold apply_at, symbol, sgn. f_equal. apply cx_eq; destruct (b_nip g), (b_conj g); destruct a; cbn; ring.
Qed.
(** absorption *)
Lemma Qc_eq_le (a b : Qc) : a = b -> a <= b. Proof. intros ->. apply Qcle_refl. Qed.
Lemma diag_norm (D : Qc) ws psi : (forall w, In w ws -> fst w * fst w + snd w * snd w <= D) -> length psi = length ws ->
  nrm (diag_mul ws psi) <= D * nrm psi.
Proof.
  revert psi. induction ws as [|w ws IH]; intros [|a psi] H L; cbn [diag_mul]; try discriminate; unfold nrm in *; cbn [qsum].
  - replace (D * 0) with 0 by ring. apply Qcle_refl.
  - injection L as L. rewrite Qcmult_plus_distr_r.
    apply Qcplus_le_compat; [|apply IH; [intros; apply H; right; assumption|exact L]].
    assert (E : forall x y : Cx Qcf, fst (cmul x y) * fst (cmul x y) + snd (cmul x y) * snd (cmul x y)
      = (fst x * fst x + snd x * snd x) * (fst y * fst y + snd y * snd y)) by (intros [] []; cbn; ring).
    apply Qcle_trans with ((fst w * fst w + snd w * snd w) * (fst a * fst a + snd a * snd a)); [exact (Qc_eq_le _ _ (E w a))|].
    apply Qcmult_le_compat_r; [apply H; left; reflexivity|]. replace 0 with (0 + 0) by ring. apply Qcplus_le_compat; apply Qc_sq_nonneg.
Qed.
(** the adjoint is the operator with the conjugate flag *)
Lemma diag_adjoint ws phi psi : length phi = length ws -> length psi = length ws ->
  dotc phi (diag_mul ws psi) = dotc (diag_mul (map cx_conj ws) phi) psi.
Proof.
  revert phi psi. induction ws as [|w ws IH]; intros [|b phi] [|a psi] L1 L2; cbn [diag_mul dotc map]; try discriminate; [reflexivity|].
  injection L1 as L1. injection L2 as L2. rewrite IH by assumption. f_equal. apply cx_eq; destruct a, b, w; cbn; ring.
Qed.
Lemma symbol_conj g w : symbol (set_conj g (negb (b_conj g))) w = cx_conj (symbol g w).
Proof. unfold symbol, set_conj. cbn [b_nip b_conj]. apply cx_eq; destruct (b_nip g), (b_conj g); cbn; ring. Qed.
Lemma nip_dot g w psi : b_nip g = true -> length psi = length w ->
  dotc psi (diag_mul (map (symbol g) w) psi) =
  (0, (if b_conj g then 1 else - (1)) * qsum (fun x => x) (zip (fun (a : Cx Qcf) w => w * (fst a * fst a + snd a * snd a)) psi w)).
Proof.
  intros N. revert psi. induction w as [|x w IH]; intros [|a psi] L; cbn [diag_mul dotc map zip qsum]; try discriminate.
  - apply cx_eq; cbn; [reflexivity|destruct (b_conj g); ring].
  - injection L as L. rewrite IH by exact L. apply cx_eq; unfold symbol; rewrite N; destruct (b_conj g), a; cbn; ring.
Qed.
Lemma osum_some l : osum (map Some l) = Some (fold_right cadd c0 l).
Proof. induction l as [|a l IH]; cbn [map osum fold_right]; [reflexivity|]. change (fold_right _ (Some c0) (map Some l)) with (osum (map Some l)). rewrite IH. reflexivity. Qed.
Lemma brac_dot psi ket : length psi = length ket -> osum (zip brac psi (map Some ket)) = Some (dotc psi ket).
Proof.
  revert ket. induction psi as [|a psi IH]; intros [|b ket] L; try discriminate; [reflexivity|]. injection L as L.
  cbn [map zip osum fold_right]. change (fold_right _ (Some c0) (zip brac psi (map Some ket))) with (osum (zip brac psi (map Some ket))).
  rewrite IH by exact L. reflexivity.
Qed.
Lemma brac_self ket : osum (map (fun k => match k with Some k => brac k (Some k) | None => None end) (map Some ket)) = Some (dotc ket ket).
Proof.
  induction ket as [|b ket IH]; [reflexivity|]. cbn [map osum fold_right].
  change (fold_right _ (Some c0) (map (fun k => match k with Some k => brac k (Some k) | None => None end) (map Some ket)))
    with (osum (map (fun k => match k with Some k => brac k (Some k) | None => None end) (map Some ket))).
  rewrite IH. reflexivity.
Qed.
Lemma dot_self ket : dotc ket ket = (nrm ket, 0).
Proof.
  induction ket as [|b ket IH]; cbn [dotc nrm qsum]; [reflexivity|]. rewrite IH. apply cx_eq; unfold nrm; destruct b; cbn; ring.
Qed.
Lemma diag_len ws psi : length psi = length ws -> length (diag_mul ws psi) = length psi.
Proof.
  revert psi. induction ws as [|w ws IH]; intros [|a psi] L; try discriminate; [reflexivity|]. injection L as L. cbn. f_equal. apply IH, L.
Qed.
Lemma expec_ok g w psi r : b_tab g = map Some w -> length psi = length w -> b_residue g = Some r ->
  expec g psi = Ok (Some (if r then nrm (diag_mul (map (symbol g) w) psi) else fst (dotc psi (diag_mul (map (symbol g) w) psi)))).
Proof.
  intros E L R. unfold expec. rewrite R, (apply_to_ok g w psi E L). cbn [get_opt bind]. destruct r.
  - rewrite brac_self, dot_self. reflexivity.
  - rewrite brac_dot; [reflexivity|]. symmetry. apply diag_len. rewrite map_length. exact L.
Qed.
Close Scope Qc_scope.
Lemma exponents_ok g w c : b_tab g = map Some w -> exponents g c = map (fun x => Some (cmul c ((x, 0%Qc) : Cx Qcf))) w.
Proof. intros E. unfold exponents. rewrite E, map_map. reflexivity. Qed.

(** ** repeated initialisation and copies *)
Lemma again g q : 0 < grid_size (q_ds (b_grid g)) -> init_psi g (Some q) = Ok (g, true).
Proof. intros H. unfold init_psi. destruct (Z.ltb_spec 0 (grid_size (q_ds (b_grid g)))); [reflexivity|lia]. Qed.
