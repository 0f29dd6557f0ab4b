(** Proofs about double valued parameters. *)
From Coq Require Import Ascii String List NArith ZArith QArith Qabs Qpower Lia Lqa Bool.
From Verif Require Import Base Model.Params Spec.Params Proofs.Params Model.Doubles Spec.Doubles.
Import ListNotations.
Open Scope Z_scope.
Notation iZ := inject_Z.

(** * Powers *)
Lemma pow_pos b e : 0 < b -> (0 < pow b e)%Q.
Proof. intros H. apply Qpower_0_lt. change 0%Q with (iZ 0). rewrite <- Zlt_Qlt. exact H. Qed.
Lemma pow_add b e f : 0 < b -> (pow b (e + f) == pow b e * pow b f)%Q.
Proof. intros H. apply Qpower_plus. intros E. pose proof (proj1 (inject_Z_injective b 0) E). lia. Qed.
Lemma pow_Z b e : 0 <= e -> (pow b e == iZ (b ^ e))%Q.
Proof. intros H. symmetry. apply Zpower_Qpower, H. Qed.
Lemma pow_inv b e : 0 < b -> 0 <= - e -> (pow b e * iZ (b ^ (- e)) == 1)%Q.
Proof. intros H E. rewrite <- pow_Z by exact E. rewrite <- pow_add by exact H. replace (e + - e) with 0 by lia. reflexivity. Qed.
Lemma pow_le b e f : 2 <= b -> e <= f -> (pow b e <= pow b f)%Q.
Proof. intros H E. apply Qpower_le_compat_l; [exact E|]. change 1%Q with (iZ 1). rewrite <- Zle_Qle. lia. Qed.
Lemma pow_lt_inv b e f : 2 <= b -> (pow b e < pow b f)%Q -> e < f.
Proof. intros H E. destruct (Z_lt_le_dec e f) as [L|L]; [exact L|]. pose proof (pow_le b f e H L). exfalso. apply (Qlt_not_le _ _ E). assumption. Qed.
Lemma iZ_le a b : a <= b -> (iZ a <= iZ b)%Q.
Proof. rewrite Zle_Qle. auto. Qed.
Lemma iZ_lt a b : a < b -> (iZ a < iZ b)%Q.
Proof. rewrite Zlt_Qlt. auto. Qed.
Lemma iZ_le_inv a b : (iZ a <= iZ b)%Q -> a <= b.
Proof. rewrite <- Zle_Qle. auto. Qed.
Lemma iZ_lt_inv a b : (iZ a < iZ b)%Q -> a < b.
Proof. rewrite <- Zlt_Qlt. auto. Qed.
Lemma iZ_pos a : 0 < a -> (0 < iZ a)%Q.
Proof. intros H. change 0%Q with (iZ 0). apply iZ_lt, H. Qed.
Lemma Qmult_le_cancel (x y z : Q) : (0 < z -> x * z <= y * z -> x <= y)%Q.
Proof. intros H. apply Qmult_le_r, H. Qed.
Lemma Qmult_lt_cancel (x y z : Q) : (0 < z -> x * z < y * z -> x < y)%Q.
Proof. intros H. apply Qmult_lt_r, H. Qed.

(** * The exponent *)
Definition floor_log (b : Z) (q : Q) (e : Z) : Prop := (pow b e <= q /\ q < pow b (e + 1))%Q.
Lemma floor_log_unique b q e f : 2 <= b -> floor_log b q e -> floor_log b q f -> e = f.
Proof.
  intros H [A1 A2] [B1 B2]. assert (e < f + 1) by (apply (pow_lt_inv b); [exact H|]; eapply Qle_lt_trans; eassumption).
  assert (f < e + 1) by (apply (pow_lt_inv b); [exact H|]; eapply Qle_lt_trans; eassumption). lia.
Qed.
Lemma up_spec b fuel : 2 <= b -> forall n d e, 0 < d -> d <= n -> n < b ^ Z.of_nat fuel * d -> exists k, 0 <= k /\ up b fuel n d e = e + k /\ b ^ k * d <= n < b ^ (k + 1) * d.
Proof.
  intros Hb. induction fuel as [|f IH]; intros n d e Hd Hn Hf; [change (b ^ Z.of_nat 0) with 1 in Hf; lia|]. cbn [up]. destruct (Z.ltb_spec n (b * d)) as [L|L].
  - exists 0. split; [lia|]. split; [lia|]. change (0 + 1) with 1. rewrite Z.pow_1_r. change (b ^ 0) with 1. lia.
  - destruct (IH n (b * d) (e + 1)) as (k & K0 & K1 & K2); [nia|exact L| |].
    + replace (Z.of_nat (S f)) with (Z.of_nat f + 1) in Hf by lia. rewrite Z.pow_add_r in Hf by lia. rewrite Z.pow_1_r in Hf. nia.
    + exists (k + 1). split; [lia|]. split; [rewrite K1; lia|]. rewrite (Z.pow_add_r b (k + 1) 1), (Z.pow_add_r b k 1) in * by lia. rewrite Z.pow_1_r in *. nia.
Qed.
Lemma down_spec b fuel : 2 <= b -> forall n d e, 0 < n -> d <= b ^ Z.of_nat fuel * n -> exists k, 0 <= k /\ down b fuel n d e = e - k /\ d <= b ^ k * n /\ (k = 0 \/ b ^ (k - 1) * n < d).
Proof.
  intros Hb. induction fuel as [|f IH]; intros n d e Hn Hf.
  - exists 0. change (b ^ Z.of_nat 0) with 1 in Hf. change (b ^ 0) with 1. cbn [down]. split; [lia|]. split; [lia|]. split; [exact Hf|left; reflexivity].
  - cbn [down]. destruct (Z.leb_spec d n) as [L|L].
    + exists 0. change (b ^ 0) with 1. split; [lia|]. split; [lia|]. split; [lia|left; reflexivity].
    + destruct (IH (b * n) d (e - 1)) as (k & K0 & K1 & K2 & K3); [nia| |].
      * replace (Z.of_nat (S f)) with (Z.of_nat f + 1) in Hf by lia. rewrite Z.pow_add_r in Hf by lia. rewrite Z.pow_1_r in Hf. nia.
      * exists (k + 1). split; [lia|]. split; [rewrite K1; lia|]. split; [rewrite Z.pow_add_r, Z.pow_1_r by lia; nia|]. right. replace (k + 1 - 1) with k by lia.
        destruct K3 as [->|K3]; [change (b ^ 0) with 1; lia|]. destruct (Z.eq_dec k 0) as [->|Hk]; [change (b ^ 0) with 1; lia|]. replace k with (k - 1 + 1) at 1 by lia. rewrite Z.pow_add_r, Z.pow_1_r by lia. nia.
Qed.
Lemma log_fuel b n : 2 <= b -> 0 < n -> n < b ^ Z.of_nat (S (Z.to_nat (Z.log2 n))).
Proof.
  intros Hb Hn. pose proof (Z.log2_nonneg n). replace (Z.of_nat (S (Z.to_nat (Z.log2 n)))) with (Z.succ (Z.log2 n)) by lia.
  apply Z.lt_le_trans with (2 ^ Z.succ (Z.log2 n)); [apply Z.log2_spec, Hn|]. apply Z.pow_le_mono_l. lia.
Qed.
Lemma flog_spec b n d q : 2 <= b -> 0 < n -> 0 < d -> (q * iZ d == iZ n)%Q -> floor_log b q (flog b n d).
Proof.
  intros Hb Hn Hd Hq. assert (Pd := iZ_pos d Hd). unfold flog, floor_log. destruct (Z.leb_spec d n) as [L|L].
  - destruct (up_spec b (S (Z.to_nat (Z.log2 n))) Hb n d 0 Hd L) as (k & K0 & -> & K1 & K2); [pose proof (log_fuel b n Hb Hn); nia|]. rewrite Z.add_0_l. split.
    + apply (Qmult_le_cancel _ _ (iZ d)); [exact Pd|]. rewrite Hq, pow_Z, <- inject_Z_mult by lia. apply iZ_le. lia.
    + apply (Qmult_lt_cancel _ _ (iZ d)); [exact Pd|]. rewrite Hq, pow_Z, <- inject_Z_mult by lia. apply iZ_lt. lia.
  - destruct (down_spec b (S (Z.to_nat (Z.log2 d))) Hb n d 0 Hn) as (k & K0 & -> & K1 & K2); [pose proof (log_fuel b d Hb Hd); nia|].
    assert (K : k <> 0) by (intros ->; change (b ^ 0) with 1 in K1; lia). destruct K2 as [K2|K2]; [contradiction|]. replace (0 - k) with (- k) by lia. split.
    + apply (Qmult_le_cancel _ _ (iZ d * iZ (b ^ k))); [apply Qmult_lt_0_compat; [exact Pd|apply iZ_pos, Z.pow_pos_nonneg; lia]|].
      pose proof (pow_inv b (- k) ltac:(lia) ltac:(lia)) as I. rewrite Z.opp_involutive in I.
      setoid_replace (pow b (- k) * (iZ d * iZ (b ^ k)))%Q with (pow b (- k) * iZ (b ^ k) * iZ d)%Q by ring. rewrite I.
      setoid_replace (q * (iZ d * iZ (b ^ k)))%Q with (q * iZ d * iZ (b ^ k))%Q by ring. rewrite Hq, <- inject_Z_mult, Qmult_1_l. apply iZ_le. lia.
    + apply (Qmult_lt_cancel _ _ (iZ d * iZ (b ^ (k - 1)))); [apply Qmult_lt_0_compat; [exact Pd|apply iZ_pos, Z.pow_pos_nonneg; lia]|].
      pose proof (pow_inv b (- k + 1) ltac:(lia) ltac:(lia)) as I. replace (- (- k + 1)) with (k - 1) in I by lia.
      setoid_replace (pow b (- k + 1) * (iZ d * iZ (b ^ (k - 1))))%Q with (pow b (- k + 1) * iZ (b ^ (k - 1)) * iZ d)%Q by ring. rewrite I.
      setoid_replace (q * (iZ d * iZ (b ^ (k - 1))))%Q with (q * iZ d * iZ (b ^ (k - 1)))%Q by ring. rewrite Hq, <- inject_Z_mult, Qmult_1_l. apply iZ_lt. lia.
Qed.

(** * Rounding to units *)
Definition near (q u : Q) (m : Z) : Prop := (Qabs (q - iZ m * u) * 2 <= u)%Q /\ ((Qabs (q - iZ m * u) * 2 == u)%Q -> Z.even m = true).
Lemma near_unique q u m m' : (0 < u)%Q -> near q u m -> near q u m' -> m = m'.
Proof.
  intros Hu. assert (G : forall a b, near q u a -> near q u b -> a < b -> False).
  { intros a b [A1 A2] [B1 B2] L. assert (H : (iZ a + 1 <= iZ b)%Q) by (change 1%Q with (iZ 1); rewrite <- inject_Z_plus; apply iZ_le; lia).
    assert (A3 : (q - iZ a * u <= Qabs (q - iZ a * u))%Q) by apply Qle_Qabs. assert (B3 : (- (q - iZ b * u) <= Qabs (q - iZ b * u))%Q) by (rewrite <- Qabs_opp; apply Qle_Qabs).
    set (x := Qabs (q - iZ a * u)) in *. set (y := Qabs (q - iZ b * u)) in *.
    assert (M : (iZ a * u + u <= iZ b * u)%Q) by (setoid_replace (iZ a * u + u)%Q with ((iZ a + 1) * u)%Q by ring; apply Qmult_le_compat_r; [exact H|apply Qlt_le_weak, Hu]).
    assert (Ea : (x * 2 == u)%Q) by lra. assert (Eb : (y * 2 == u)%Q) by lra. specialize (A2 Ea). specialize (B2 Eb).
    assert (N : (iZ b * u <= iZ a * u + u)%Q) by lra. assert (N' : (iZ b <= iZ (a + 1))%Q).
    { apply (Qmult_le_cancel _ _ u Hu). rewrite inject_Z_plus. change (iZ 1) with 1%Q. setoid_replace ((iZ a + 1) * u)%Q with (iZ a * u + u)%Q by ring. exact N. }
    apply iZ_le_inv in N'. assert (b = a + 1) by lia. subst b. rewrite Z.even_add, A2 in B2. discriminate. }
  intros A B. destruct (Z.lt_trichotomy m m') as [L|[E|L]]; [exfalso; eapply G; [exact A|exact B|exact L]|exact E|exfalso; eapply G; [exact B|exact A|exact L]].
Qed.
Lemma near_ext q q' u m : (q == q')%Q -> near q u m -> near q' u m.
Proof. intros E [A B]. unfold near. rewrite <- E. auto. Qed.
Lemma rhe_spec n d : 0 < d -> 2 * Z.abs (n - rhe n d * d) <= d /\ (2 * Z.abs (n - rhe n d * d) = d -> Z.even (rhe n d) = true).
Proof.
  intros Hd. unfold rhe. pose proof (Z.div_mod n d ltac:(lia)) as D. pose proof (Z.mod_pos_bound n d Hd) as B. set (q := n / d) in *. set (r := n mod d) in *.
  assert (E0 : n - q * d = r) by lia. assert (E1 : n - (q + 1) * d = r - d) by lia.
  destruct (Z.compare_spec (2 * r) d) as [C|C|C].
  - destruct (Z.even q) eqn:Ev; [rewrite E0|rewrite E1]; split; try lia; intros _; [exact Ev|]. rewrite Z.even_add, Ev. reflexivity.
  - rewrite E0. split; [lia|]. intros; lia.
  - rewrite E1. split; [lia|]. intros; lia.
Qed.
Lemma iZ_abs a : (Qabs (iZ a) == iZ (Z.abs a))%Q.
Proof. reflexivity. Qed.
Lemma in_units_spec b n d q e : 2 <= b -> 0 < d -> (q * iZ d == iZ n)%Q -> near q (pow b e) (in_units b n d e).
Proof.
  intros Hb Hd Hq. assert (Pd := iZ_pos d Hd). assert (Pu := pow_pos b e ltac:(lia)).
  assert (G : forall n' d' s m, 0 < d' -> (0 < s)%Q -> m = rhe n' d' -> (iZ n' == q * s)%Q -> (iZ d' == pow b e * s)%Q -> near q (pow b e) m).
  { intros n' d' s m Hd' Hs -> En Ed. destruct (rhe_spec n' d' Hd') as [R1 R2]. set (m := rhe n' d') in *.
    assert (E : (Qabs (q - iZ m * pow b e) * s == iZ (Z.abs (n' - m * d')))%Q).
    { rewrite <- iZ_abs. setoid_replace (iZ (n' - m * d')) with ((q - iZ m * pow b e) * s)%Q; [rewrite Qabs_Qmult, (Qabs_pos s) by (apply Qlt_le_weak, Hs); reflexivity|].
      unfold Zminus. rewrite inject_Z_plus, inject_Z_opp, inject_Z_mult, En, Ed. ring. }
    assert (E2 : (Qabs (q - iZ m * pow b e) * 2 * s == iZ (2 * Z.abs (n' - m * d')))%Q) by (rewrite inject_Z_mult, <- E; change (iZ 2) with 2%Q; ring).
    split.
    - apply (Qmult_le_cancel _ _ s Hs). rewrite E2, <- Ed. apply iZ_le. exact R1.
    - intros T. apply R2. apply inject_Z_injective. rewrite <- E2, Ed, T. reflexivity. }
  unfold in_units. destruct (Z.leb_spec 0 e) as [L|L].
  - apply (G n (d * b ^ e) (iZ d)); [|exact Pd|reflexivity|symmetry; exact Hq|].
    + apply Z.mul_pos_pos; [exact Hd|apply Z.pow_pos_nonneg; lia].
    + rewrite inject_Z_mult, pow_Z by exact L. ring.
  - pose proof (pow_inv b e ltac:(lia) ltac:(lia)) as I.
    apply (G (n * b ^ (- e)) d (iZ d * iZ (b ^ (- e)))%Q); [exact Hd| |reflexivity| |].
    + apply Qmult_lt_0_compat; [exact Pd|]. apply iZ_pos, Z.pow_pos_nonneg; lia.
    + rewrite inject_Z_mult, <- Hq. ring.
    + setoid_replace (pow b e * (iZ d * iZ (b ^ (- e))))%Q with (pow b e * iZ (b ^ (- e)) * iZ d)%Q by ring. rewrite I. ring.
Qed.
(** no multiple is closer *)
Lemma near_best q u m k : (0 < u)%Q -> near q u m -> (Qabs (q - iZ m * u) <= Qabs (q - iZ k * u))%Q.
Proof.
  intros Hu [A _]. destruct (Z.eq_dec k m) as [->|N]; [apply Qle_refl|].
  assert (H : (u <= Qabs (iZ m * u - iZ k * u))%Q).
  { setoid_replace (iZ m * u - iZ k * u)%Q with (iZ (m - k) * u)%Q by (unfold Zminus; rewrite inject_Z_plus, inject_Z_opp; ring).
    rewrite Qabs_Qmult, (Qabs_pos u) by (apply Qlt_le_weak, Hu). rewrite iZ_abs. assert (1 <= iZ (Z.abs (m - k)))%Q by (change 1%Q with (iZ 1); apply iZ_le; lia).
    rewrite <- (Qmult_1_l u) at 1. apply Qmult_le_compat_r; [assumption|apply Qlt_le_weak, Hu]. }
  pose proof (Qabs_triangle (iZ m * u - q) (q - iZ k * u)) as T. setoid_replace (iZ m * u - q + (q - iZ k * u))%Q with (iZ m * u - iZ k * u)%Q in T by ring.
  rewrite (Qabs_Qminus (iZ m * u) q) in T. set (x := Qabs (q - iZ m * u)) in *. set (y := Qabs (q - iZ k * u)) in *. set (z := Qabs (iZ m * u - iZ k * u)) in *. lra.
Qed.
Lemma near_best_below q u m k y : (0 < u)%Q -> near q u m -> (y <= iZ k * u)%Q -> (iZ k * u <= q)%Q -> (Qabs (q - iZ m * u) <= Qabs (q - y))%Q.
Proof.
  intros Hu N L1 L2. eapply Qle_trans; [apply (near_best q u m k Hu N)|]. rewrite !Qabs_pos by lra. lra.
Qed.

(** * Six digits *)
Definition of_six (m x : Z) : Q := (iZ m * pow 10 (x - 5))%Q.
(** the six digits of q *)
Definition is_six (q : Q) (m x : Z) : Prop :=
  exists X k, floor_log 10 q X /\ near q (pow 10 (X - 5)) k /\ (k = 1000000 /\ m = 100000 /\ x = X + 1 \/ k <> 1000000 /\ m = k /\ x = X).
Lemma six_is n d q : 0 < n -> 0 < d -> (q * iZ d == iZ n)%Q -> is_six q (fst (six n d)) (snd (six n d)).
Proof.
  intros Hn Hd Hq. exists (flog 10 n d), (in_units 10 n d (flog 10 n d - 5)). split; [apply flog_spec; [lia|assumption..]|]. split; [apply in_units_spec; [lia|assumption..]|].
  unfold six. cbv zeta. destruct (Z.eqb_spec (in_units 10 n d (flog 10 n d - 5)) 1000000) as [E|E]; [left|right]; repeat split; assumption || reflexivity.
Qed.
Lemma is_six_unique q m x m' x' : is_six q m x -> is_six q m' x' -> m = m' /\ x = x'.
Proof.
  intros (X & k & F & N & C) (X' & k' & F' & N' & C'). assert (X' = X) by (eapply floor_log_unique; [|exact F'|exact F]; lia). subst X'.
  assert (k' = k) by (eapply near_unique; [|exact N'|exact N]; apply pow_pos; lia). subst k'. destruct C as [(A & B & D)|(A & B & D)], C' as [(A' & B' & D')|(A' & B' & D')]; subst; split; reflexivity || contradiction.
Qed.
Lemma pow10_5 e : (pow 10 e == 100000 * pow 10 (e - 5))%Q.
Proof. replace e with (5 + (e - 5)) at 1 by lia. rewrite pow_add by lia. reflexivity. Qed.
Lemma pow10_6 e : (pow 10 (e + 1) == 1000000 * pow 10 (e - 5))%Q.
Proof. replace (e + 1) with (6 + (e - 5)) by lia. rewrite pow_add by lia. reflexivity. Qed.
Lemma near_bounds b q e a m : 2 <= b -> near q (pow b e) m -> (iZ a * pow b e <= q)%Q -> a <= m.
Proof.
  intros Hb [N _] L. assert (P := pow_pos b e ltac:(lia)). set (u := pow b e) in *. destruct (Z_le_gt_dec a m) as [H|H]; [exact H|exfalso].
  assert (H' : (iZ m + 1 <= iZ a)%Q) by (change 1%Q with (iZ 1); rewrite <- inject_Z_plus; apply iZ_le; lia).
  assert (M : (iZ m * u + u <= iZ a * u)%Q) by (setoid_replace (iZ m * u + u)%Q with ((iZ m + 1) * u)%Q by ring; apply Qmult_le_compat_r; [exact H'|apply Qlt_le_weak, P]).
  pose proof (Qle_Qabs (q - iZ m * u)). lra.
Qed.
Lemma near_bounds' b q e a m : 2 <= b -> near q (pow b e) m -> (q <= iZ a * pow b e)%Q -> m <= a.
Proof.
  intros Hb [N _] L. assert (P := pow_pos b e ltac:(lia)). set (u := pow b e) in *. destruct (Z_le_gt_dec m a) as [H|H]; [exact H|exfalso].
  assert (H' : (iZ a + 1 <= iZ m)%Q) by (change 1%Q with (iZ 1); rewrite <- inject_Z_plus; apply iZ_le; lia).
  assert (M : (iZ a * u + u <= iZ m * u)%Q) by (setoid_replace (iZ a * u + u)%Q with ((iZ a + 1) * u)%Q by ring; apply Qmult_le_compat_r; [exact H'|apply Qlt_le_weak, P]).
  pose proof (Qle_Qabs (- (q - iZ m * u))) as T. rewrite Qabs_opp in T. lra.
Qed.
Lemma is_six_facts q m x : is_six q m x -> 100000 <= m < 1000000 /\ (Qabs (q - of_six m x) * 200000 <= q)%Q /\
  exists X k, floor_log 10 q X /\ near q (pow 10 (X - 5)) k /\ 100000 <= k /\ (of_six m x == iZ k * pow 10 (X - 5))%Q.
Proof.
  intros (X & k & [F1 F2] & N & C). assert (P := pow_pos 10 (X - 5) ltac:(lia)).
  assert (L : 100000 <= k) by (apply (near_bounds 10 q (X - 5)); [lia|exact N|]; rewrite pow10_5 in F1; exact F1).
  assert (U : k <= 1000000) by (apply (near_bounds' 10 q (X - 5)); [lia|exact N|]; rewrite pow10_6 in F2; apply Qlt_le_weak, F2).
  assert (E : (of_six m x == iZ k * pow 10 (X - 5))%Q).
  { destruct C as [(-> & -> & ->)|(H & -> & ->)]; [|reflexivity]. unfold of_six. replace (X + 1 - 5) with (1 + (X - 5)) by lia. rewrite pow_add by lia. change (pow 10 1) with 10%Q. change (iZ 100000) with (100000#1). change (iZ 1000000) with (1000000#1). ring. }
  split; [destruct C as [(-> & -> & ->)|(H & -> & ->)]; lia|]. split.
  - rewrite E. destruct N as [N _]. rewrite pow10_5 in F1. set (u := pow 10 (X - 5)) in *. set (y := Qabs (q - iZ k * u)) in *. lra.
  - exists X, k. split; [split; assumption|]. split; [exact N|]. split; [exact L|exact E].
Qed.
(** no decimal number with six digits is closer *)
Lemma six_digits_pow m e X : Z.abs m < 1000000 -> X - 5 <= e -> exists k, (iZ m * pow 10 e == iZ k * pow 10 (X - 5))%Q.
Proof. intros _ H. exists (m * 10 ^ (e - (X - 5))). rewrite inject_Z_mult, <- pow_Z, <- Qmult_assoc, <- pow_add by lia. replace (e - (X - 5) + (X - 5)) with e by lia. reflexivity. Qed.
Lemma is_six_best q m x : is_six q m x -> forall r, six_digits r -> (Qabs (q - of_six m x) <= Qabs (q - r))%Q.
Proof.
  intros S r (a & e & Ha & Er). destruct (is_six_facts q m x S) as (_ & _ & X & k & [F1 F2] & N & L & E). rewrite E, Er. assert (P := pow_pos 10 (X - 5) ltac:(lia)).
  destruct (Z_le_gt_dec (X - 5) e) as [H|H].
  - destruct (six_digits_pow a e X Ha H) as [j ->]. apply near_best; assumption.
  - apply (near_best_below q _ k 100000); [exact P|exact N| |rewrite pow10_5 in F1; exact F1].
    apply Qle_trans with (iZ 1000000 * pow 10 e)%Q; [apply Qmult_le_compat_r; [apply iZ_le; lia|apply Qlt_le_weak, pow_pos; lia]|].
    change (iZ 1000000) with (1000000#1). change (iZ 100000) with (100000#1). rewrite <- pow10_5. replace e with (e + 5 - 5) by lia. rewrite <- (pow10_6 (e + 5)). apply pow_le; lia.
Qed.

(** a number close to one with six digits has these digits *)
Lemma six_back q M E : 100000 <= M < 1000000 -> (Qabs (q - iZ M * pow 10 E) * 10000000 <= iZ M * pow 10 E)%Q -> is_six q M (E + 5).
Proof.
  intros HM H. assert (P := pow_pos 10 E ltac:(lia)). assert (M1 : (100000 <= iZ M)%Q) by (apply (iZ_le 100000); lia). assert (M2 : (iZ M <= 999999)%Q) by (apply (iZ_le M 999999); lia).
  assert (B1 : (100000 * pow 10 E <= iZ M * pow 10 E)%Q) by (apply Qmult_le_compat_r; [exact M1|apply Qlt_le_weak, P]).
  assert (B2 : (iZ M * pow 10 E <= 999999 * pow 10 E)%Q) by (apply Qmult_le_compat_r; [exact M2|apply Qlt_le_weak, P]).
  destruct (Qlt_le_dec q (pow 10 (E + 5))) as [L|L].
  - (* below a power of ten: M is 100000 *)
    rewrite pow10_5 in L. replace (E + 5 - 5) with E in L by lia.
    assert (EM : M = 100000).
    { destruct (Z.eq_dec M 100000) as [Z|Z]; [exact Z|exfalso]. assert (M3 : (100001 <= iZ M)%Q) by (apply (iZ_le 100001); lia).
      assert (B3 : (100001 * pow 10 E <= iZ M * pow 10 E)%Q) by (apply Qmult_le_compat_r; [exact M3|apply Qlt_le_weak, P]).
      pose proof (Qle_Qabs (- (q - iZ M * pow 10 E))) as T. rewrite Qabs_opp in T. lra. }
    subst M. change (iZ 100000) with (100000#1) in *. assert (P' : (pow 10 E == 10 * pow 10 (E - 1))%Q) by (replace E with (1 + (E - 1)) at 1 by lia; rewrite pow_add by lia; reflexivity).
    pose proof (Qle_Qabs (- (q - 100000 * pow 10 E))) as T. rewrite Qabs_opp in T.
    exists (E + 4), 1000000. split; [|split].
    + split.
      * rewrite pow10_5. replace (E + 4 - 5) with (E - 1) by lia. lra.
      * replace (E + 4 + 1) with (E + 5) by lia. rewrite pow10_5. replace (E + 5 - 5) with E by lia. lra.
    + replace (E + 4 - 5) with (E - 1) by lia. assert (Q : (Qabs (q - iZ 1000000 * pow 10 (E - 1)) == Qabs (q - 100000 * pow 10 E))%Q) by (apply Qabs_wd; rewrite P'; change (iZ 1000000) with (1000000#1); ring).
      split; [rewrite Q; lra|]. intros _. reflexivity.
    + left. split; [reflexivity|]. split; [reflexivity|]. lia.
  - rewrite pow10_5 in L. replace (E + 5 - 5) with E in L by lia. pose proof (Qle_Qabs (q - iZ M * pow 10 E)) as T.
    exists (E + 5), M. split; [|split].
    + split; [rewrite pow10_5; replace (E + 5 - 5) with E by lia; exact L|]. rewrite pow10_6. replace (E + 5 - 5) with E by lia. lra.
    + replace (E + 5 - 5) with E by lia. split; [lra|]. intros T2. exfalso. lra.
    + right. split; [lia|]. split; reflexivity.
Qed.

(** * The nearest double *)
Definition amount (x : dbl) : Q := (iZ (d_m x) * pow 2 (d_e x))%Q.
Lemma to_dbl_zero neg d : to_dbl neg 0 d = Some (mkD neg 0 (-1074)).
Proof. reflexivity. Qed.
Definition is_dbl (q : Q) (neg : bool) (r : option dbl) : Prop :=
  exists L k m e, floor_log 2 q L /\ near q (pow 2 (Z.max (L - 52) (-1074))) k /\
    (k = 2 ^ 53 /\ m = 2 ^ 52 /\ e = Z.max (L - 52) (-1074) + 1 \/ k <> 2 ^ 53 /\ m = k /\ e = Z.max (L - 52) (-1074)) /\
    (971 < e /\ r = None \/ e <= 971 /\ r = Some (mkD neg m e)).
Lemma to_dbl_is neg n d q : 0 < n -> 0 < d -> (q * iZ d == iZ n)%Q -> is_dbl q neg (to_dbl neg n d).
Proof.
  intros Hn Hd Hq. set (L := flog 2 n d). set (k := in_units 2 n d (Z.max (L - 52) (-1074))).
  exists L, k, (if k =? 2 ^ 53 then 2 ^ 52 else k), (if k =? 2 ^ 53 then Z.max (L - 52) (-1074) + 1 else Z.max (L - 52) (-1074)).
  split; [apply flog_spec; [lia|assumption..]|]. split; [apply in_units_spec; [lia|assumption..]|]. unfold to_dbl. fold L. cbv zeta. fold k. destruct (Z.eqb_spec n 0); [lia|].
  destruct (Z.eqb_spec k (2 ^ 53)) as [E|E]; (split; [|match goal with |- context [971 <? ?e] => destruct (Z.ltb_spec 971 e) end; [left|right]; split; auto]).
  - left. repeat split. exact E.
  - right. repeat split. exact E.
Qed.
Lemma is_dbl_unique q neg r r' : is_dbl q neg r -> is_dbl q neg r' -> r = r'.
Proof.
  intros (L & k & m & e & F & N & C & R) (L' & k' & m' & e' & F' & N' & C' & R'). assert (L' = L) by (eapply floor_log_unique; [|exact F'|exact F]; lia). subst L'.
  assert (k' = k) by (eapply near_unique; [|exact N'|exact N]; apply pow_pos; lia). subst k'.
  assert (m = m' /\ e = e') as [<- <-] by (destruct C as [(A & B & D)|(A & B & D)], C' as [(A' & B' & D')|(A' & B' & D')]; subst; split; reflexivity || contradiction).
  destruct R as [[A ->]|[A ->]], R' as [[A' ->]|[A' ->]]; reflexivity || lia.
Qed.
Lemma is_dbl_ext q q' neg r : (q == q')%Q -> is_dbl q neg r -> is_dbl q' neg r.
Proof. intros E (L & k & m & e & F & N & C & R). exists L, k, m, e. split; [unfold floor_log in *; rewrite <- E; exact F|]. split; [eapply near_ext; eassumption|]. split; assumption. Qed.
Lemma pow2_52 e : (pow 2 e == iZ (2 ^ 52) * pow 2 (e - 52))%Q.
Proof. replace e with (52 + (e - 52)) at 1 by lia. rewrite pow_add by lia. reflexivity. Qed.
Lemma pow2_53 e : (pow 2 (e + 1) == iZ (2 ^ 53) * pow 2 (e - 52))%Q.
Proof. replace (e + 1) with (53 + (e - 52)) by lia. rewrite pow_add by lia. reflexivity. Qed.
Lemma double_multiple m e e0 : e0 <= e -> exists k, (iZ m * pow 2 e == iZ k * pow 2 e0)%Q.
Proof. intros H. exists (m * 2 ^ (e - e0)). rewrite inject_Z_mult, <- pow_Z, <- Qmult_assoc, <- pow_add by lia. replace (e - e0 + e0) with e by lia. reflexivity. Qed.
Lemma is_dbl_facts q neg r : is_dbl q neg r -> forall x, r = Some x ->
  is_double x /\ d_neg x = neg /\ (forall y, is_double y -> Qabs (q - amount x) <= Qabs (q - amount y))%Q /\
  (pow 2 (-1022) <= q -> Qabs (q - amount x) * iZ (2 ^ 53) <= q)%Q.
Proof.
  intros (L & k & m & e & [F1 F2] & N & C & R) x ->. set (e0 := Z.max (L - 52) (-1074)) in *. assert (P := pow_pos 2 e0 ltac:(lia)).
  destruct R as [[_ R]|[He R]]; [discriminate|]. injection R as ->.
  assert (U : k <= 2 ^ 53).
  { apply (near_bounds' 2 q e0); [lia|exact N|]. apply Qlt_le_weak. eapply Qlt_le_trans; [exact F2|]. rewrite pow2_53. apply Qmult_le_l; [reflexivity|]. apply pow_le; lia. }
  assert (B : (L - 52 = e0 /\ 2 ^ 52 <= k) \/ (L - 52 < e0 /\ e0 = -1074 /\ 0 <= k <= 2 ^ 52)).
  { destruct (Z_le_gt_dec (-1074) (L - 52)) as [H|H].
    - left. assert (E : e0 = L - 52) by lia. split; [lia|]. apply (near_bounds 2 q e0); [lia|exact N|]. rewrite E, <- pow2_52. exact F1.
    - right. assert (E : e0 = -1074) by lia. split; [lia|]. split; [exact E|]. split.
      + apply (near_bounds 2 q e0); [lia|exact N|]. rewrite Qmult_0_l. apply Qle_trans with (pow 2 L); [apply Qlt_le_weak, pow_pos; lia|exact F1].
      + apply (near_bounds' 2 q e0); [lia|exact N|]. apply Qlt_le_weak. eapply Qlt_le_trans; [exact F2|]. replace e0 with (e0 + 52 - 52) by lia. rewrite <- pow2_52. apply pow_le; lia. }
  assert (V : (amount (mkD neg m e) == iZ k * pow 2 e0)%Q).
  { unfold amount. cbn [d_m d_e]. destruct C as [(-> & -> & ->)|(H & -> & ->)]; [|reflexivity]. rewrite pow_add by lia. change (iZ (2 ^ 53)) with (iZ (2 ^ 52) * 2)%Q. change (pow 2 1) with 2%Q. ring. }
  split; [|split; [reflexivity|split]].
  - unfold is_double. cbn [d_m d_e]. destruct C as [(Hk & -> & ->)|(Hk & -> & ->)]; [left; lia|]. destruct B as [[B1 B2]|(B1 & B2 & B3)]; [left; lia|]. destruct (Z.eq_dec k (2 ^ 52)); [left; lia|right; lia].
  - intros y Hy. rewrite V. unfold amount. destruct (Z_le_gt_dec e0 (d_e y)) as [H|H].
    + destruct (double_multiple (d_m y) (d_e y) e0 H) as [j ->]. apply near_best; assumption.
    + destruct B as [[B1 B2]|(B1 & B2 & B3)]; [|exfalso; destruct Hy as [Hy|Hy]; lia].
      apply (near_best_below q _ k (2 ^ 52)); [exact P|exact N| |rewrite <- B1, <- pow2_52; exact F1].
      apply Qle_trans with (iZ (2 ^ 53) * pow 2 (d_e y))%Q; [apply Qmult_le_compat_r; [apply iZ_le; destruct Hy as [Hy|Hy]; lia|apply Qlt_le_weak, pow_pos; lia]|].
      replace (d_e y) with (d_e y + 52 - 52) by lia. rewrite <- pow2_53. replace e0 with (e0 + 52 - 52) by lia. rewrite <- pow2_52. apply pow_le; lia.
  - intros Hq. rewrite V. assert (B1 : L - 52 = e0).
    { assert (-1022 < L + 1) by (apply (pow_lt_inv 2); [lia|]; eapply Qle_lt_trans; eassumption). lia. }
    rewrite pow2_52, B1 in F1. destruct N as [N _]. change (iZ (2 ^ 53)) with (iZ (2 ^ 52) * 2)%Q. eapply Qle_trans; [|exact F1].
    setoid_replace (Qabs (q - iZ k * pow 2 e0) * (iZ (2 ^ 52) * 2))%Q with (iZ (2 ^ 52) * (Qabs (q - iZ k * pow 2 e0) * 2))%Q by ring. apply Qmult_le_l; [reflexivity|exact N].
Qed.
Lemma is_dbl_some q neg r : is_dbl q neg r -> (q <= pow 2 1023)%Q -> exists x, r = Some x.
Proof.
  intros (L & k & m & e & [F1 F2] & N & C & R) H. destruct R as [[A _]|[_ ->]]; [exfalso|eexists; reflexivity].
  assert (HL : L <= 1023). { destruct (Z_le_gt_dec L 1023) as [G|G]; [exact G|exfalso]. assert (L < 1023 + 1); [|lia]. apply (pow_lt_inv 2); [lia|]. eapply Qle_lt_trans; [exact F1|]. eapply Qle_lt_trans; [exact H|].
    apply Qpower_lt_compat_l; [lia|]. reflexivity. }
  destruct C as [(-> & -> & ->)|(Hk & -> & ->)]; [|lia]. destruct (Z.eq_dec L 1023) as [->|]; [|lia].
  assert (2 ^ 53 <= 2 ^ 52); [|lia]. apply (near_bounds' 2 q (Z.max (1023 - 52) (-1074))); [lia|exact N|]. eapply Qle_trans; [exact H|]. rewrite pow2_52. apply Qle_refl.
Qed.

(** * Reading *)
Definition dv (s : str) : Z := Z.of_N (dec_val s).
Definition reads (neg : bool) (q : Q) (r : option dbl) : Prop := (q == 0)%Q /\ r = Some (mkD neg 0 (-1074)) \/ (0 < q)%Q /\ is_dbl q neg r.
Lemma reads_unique neg q q' r r' : (q == q')%Q -> reads neg q r -> reads neg q' r' -> r = r'.
Proof.
  intros E [[A ->]|[A B]] [[A' ->]|[A' B']]; [reflexivity|exfalso; lra|exfalso; lra|]. apply (is_dbl_unique q neg); [exact B|]. apply (is_dbl_ext q'); [symmetry; exact E|exact B'].
Qed.
Lemma dec_to_dbl neg m e : 0 <= m -> reads neg (iZ m * pow 10 e) (if 0 <=? e then to_dbl neg (m * 10 ^ e) 1 else to_dbl neg m (10 ^ (- e))).
Proof.
  intros Hm. assert (P := pow_pos 10 e ltac:(lia)). destruct (Z.eq_dec m 0) as [->|N].
  - left. split; [apply Qmult_0_l|]. rewrite Z.mul_0_l. destruct (0 <=? e); reflexivity.
  - right. split; [apply Qmult_lt_0_compat; [apply iZ_pos; lia|exact P]|]. destruct (Z.leb_spec 0 e) as [L|L].
    + apply to_dbl_is; [|lia|].
      * apply Z.mul_pos_pos; [lia|apply Z.pow_pos_nonneg; lia].
      * rewrite inject_Z_mult, pow_Z by exact L. ring.
    + apply to_dbl_is; [lia|apply Z.pow_pos_nonneg; lia|]. rewrite <- Qmult_assoc, pow_inv by lia. ring.
Qed.
Lemma digit_not_white c : digit c -> ~ white c.
Proof. unfold digit, white. cbn. intros H W. lia. Qed.
Lemma digit_not c d : digit c -> ~ digit d -> Ascii.eqb c d = false.
Proof. intros A B. destruct (Ascii.eqb_spec c d); [subst; contradiction|reflexivity]. Qed.
Ltac notdigit := unfold digit; cbn; lia.
Lemma sign_of_text sg neg t : sign_text sg neg -> (forall c r, t = c :: r -> digit c \/ c = "."%char) -> sign_of (sg ++ t) = (neg, t).
Proof.
  intros [[-> ->]|[[-> ->]|[-> ->]]] H; [|reflexivity|reflexivity]. destruct t as [|c r]; [reflexivity|]. cbn [app]. unfold sign_of.
  destruct (H c r eq_refl) as [D| ->]; [|reflexivity]. rewrite !digit_not by (exact D || notdigit). reflexivity.
Qed.
Lemma exponent_of ex e : exponent_text ex e -> exponent ex = e.
Proof.
  intros [|c sg neg d Hc Hs Hd Hn]; [reflexivity|]. unfold exponent. replace (Ascii.eqb c "e" || Ascii.eqb c "E") with true by (destruct Hc as [-> | ->]; reflexivity).
  rewrite (sign_of_text sg neg); [|exact Hs|intros x r ->; left; inversion Hd; assumption]. rewrite <- (app_nil_r d), span_digits_app by (exact Hd || discriminate). rewrite app_nil_r. reflexivity.
Qed.
Lemma exponent_start ex e c t : exponent_text ex e -> ex = c :: t -> ~ digit c /\ Ascii.eqb c "." = false.
Proof. intros H E. destruct H as [|x sg neg d Hc Hs Hd Hn]; [discriminate|]. injection E as -> _. destruct Hc as [-> | ->]; split; reflexivity || notdigit. Qed.
Lemma scan_numeral w sg neg a f fr ex e : Forall white w -> sign_text sg neg -> Forall digit a -> Forall digit f -> (fr = [] /\ f = [] \/ fr = "."%char :: f) -> (a ++ f)%list <> [] -> exponent_text ex e ->
  scan_lf (w ++ sg ++ a ++ fr ++ ex) = Some (neg, dv (a ++ f), e - Z.of_nat (length f)).
Proof.
  intros Hw Hs Ha Hf Hfr Hn He. set (t := (a ++ fr ++ ex)%list).
  assert (T : forall c r, t = c :: r -> digit c \/ c = "."%char).
  { intros c r E. unfold t in E. destruct a as [|x a]; [|injection E as <- _; left; inversion Ha; assumption]. destruct Hfr as [[-> ->]| ->]; [contradiction Hn; reflexivity|]. right. injection E. auto. }
  assert (W : forall c r, (sg ++ t)%list = c :: r -> ~ white c).
  { intros c r E. destruct Hs as [[-> ->]|[[-> ->]|[-> ->]]].
    - destruct (T c r E) as [D| ->]; [apply digit_not_white, D|unfold white; cbn; lia].
    - injection E as <- _. unfold white; cbn; lia.
    - injection E as <- _. unfold white; cbn; lia. }
  unfold scan_lf. rewrite skip_space_app by assumption. rewrite (sign_of_text sg neg t Hs T). unfold t.
  assert (R : forall c r, (fr ++ ex)%list = c :: r -> ~ digit c).
  { intros c r E. destruct Hfr as [[-> ->]| ->]; [apply (exponent_start ex e c r He E)|injection E as <- _; notdigit]. }
  rewrite span_digits_app by assumption. rewrite skipn_app_len.
  assert (F : match (fr ++ ex)%list with c :: t => if Ascii.eqb c "." then span_digits t else [] | [] => [] end = f /\
              (match (fr ++ ex)%list with c :: t => if Ascii.eqb c "." then skipn (length f) t else (fr ++ ex)%list | [] => [] end = ex)).
  { destruct Hfr as [[-> ->]| ->]; cbn [app].
    - destruct ex as [|c x]; [split; reflexivity|]. destruct (exponent_start _ _ _ _ He eq_refl) as [_ ->]. split; reflexivity.
    - rewrite Ascii.eqb_refl. rewrite span_digits_app; [|exact Hf|intros c r E; apply (exponent_start ex e c r He E)]. split; [reflexivity|apply skipn_app_len]. }
  destruct F as [F1 F2]. rewrite F1. cbv zeta. rewrite F2. destruct (a ++ f)%list as [|c r] eqn:E; [contradiction Hn; reflexivity|]. rewrite (exponent_of ex e He). reflexivity.
Qed.
Lemma read_numeral w s q : Forall white w -> numeral s q -> exists neg qa r, q = signed neg qa /\ (0 <= qa)%Q /\ read_lf (w ++ s) = Some r /\ reads neg qa r.
Proof.
  intros Hw [sg neg a f fr ex e Hs Ha Hf Hfr Hn He]. exists neg, (iZ (dv (a ++ f)) * pow 10 (e - Z.of_nat (length f)))%Q. eexists. split; [reflexivity|]. split.
  - apply Qmult_le_0_compat; [apply (iZ_le 0); unfold dv; lia|apply Qlt_le_weak, pow_pos; lia].
  - unfold read_lf. rewrite (scan_numeral w sg neg a f fr ex e) by assumption. split; [reflexivity|]. apply dec_to_dbl. unfold dv. lia.
Qed.
(** texts of numbers have no commas *)
Lemma digits_nocomma d : Forall digit d -> ~ In ","%char d.
Proof. intros H I. rewrite Forall_forall in H. apply H in I. revert I. notdigit. Qed.
Lemma sign_nocomma sg neg : sign_text sg neg -> ~ In ","%char sg.
Proof. intros [[-> _]|[[-> _]|[-> _]]]; cbn; [tauto|intros [H|[]]; discriminate..]. Qed.
Lemma numeral_nocomma s q : numeral s q -> ~ In ","%char s.
Proof.
  intros [sg neg a f fr ex e Hs Ha Hf Hfr Hn He] I. rewrite !in_app_iff in I. destruct I as [I|[I|[I|I]]].
  - exact (sign_nocomma _ _ Hs I).
  - exact (digits_nocomma _ Ha I).
  - destruct Hfr as [[-> _]| ->]; [exact I|]. destruct I as [I|I]; [discriminate|exact (digits_nocomma _ Hf I)].
  - destruct He as [|c sg' neg' d Hc Hs' Hd Hn']; [exact I|]. destruct I as [I|I]; [destruct Hc as [-> | ->]; discriminate|]. apply in_app_iff in I. destruct I as [I|I]; [exact (sign_nocomma _ _ Hs' I)|exact (digits_nocomma _ Hd I)].
Qed.

(** * Printing *)
Lemma dv_app a b : dv (a ++ b) = dv a * 10 ^ Z.of_nat (length b) + dv b.
Proof.
  unfold dv, dec_val. rewrite dec_val_acc_app. generalize (dec_val_acc 0 a) as acc. clear a.
  assert (G : forall b acc, Z.of_N (dec_val_acc acc b) = Z.of_N acc * 10 ^ Z.of_nat (length b) + Z.of_N (dec_val_acc 0 b)).
  { clear b. induction b as [|c b IH]; intros acc; [cbn [length dec_val_acc]; unfold dec_val_acc; cbn [fold_left]; change (10 ^ Z.of_nat 0) with 1; lia|].
    change (dec_val_acc acc (c :: b)) with (dec_val_acc (10 * acc + digit_val c) b). change (dec_val_acc 0 (c :: b)) with (dec_val_acc (10 * 0 + digit_val c) b).
    rewrite (IH (10 * acc + digit_val c)%N), (IH (10 * 0 + digit_val c)%N). cbn [length]. replace (Z.of_nat (S (length b))) with (Z.of_nat (length b) + 1) by lia. rewrite Z.pow_add_r by lia. rewrite Z.pow_1_r. lia. }
  apply G.
Qed.
Lemma dv_zeros k : dv (repeat "0"%char k) = 0.
Proof. induction k as [|k IH]; [reflexivity|]. change (repeat "0"%char (S k)) with ([ "0"%char ] ++ repeat "0"%char k)%list. rewrite dv_app, IH. reflexivity. Qed.
Lemma skip0_spec s : exists k, s = (repeat "0"%char k ++ skip0 s)%list.
Proof.
  induction s as [|c s [k IH]]; [exists O; reflexivity|]. cbn [skip0]. destruct (Ascii.eqb_spec c "0") as [->|N]; [exists (S k); cbn [repeat app]; rewrite <- IH; reflexivity|exists O; reflexivity].
Qed.
Lemma rev_repeat {A} (x : A) k : rev (repeat x k) = repeat x k.
Proof. induction k as [|k IH]; [reflexivity|]. cbn [repeat rev]. rewrite IH. symmetry. apply repeat_cons. Qed.
Lemma strip0_spec s : exists k, s = (strip0 s ++ repeat "0"%char k)%list.
Proof. unfold strip0. destruct (skip0_spec (rev s)) as [k H]. exists k. rewrite <- (rev_involutive s) at 1. rewrite H at 1. rewrite rev_app_distr, rev_repeat. reflexivity. Qed.
Lemma zeros_digits k : Forall digit (repeat "0"%char k).
Proof. apply Forall_forall. intros c H. apply repeat_spec in H. subst. notdigit. Qed.
Lemma dec_print_digits n : Forall digit (dec_print n).
Proof. destruct (dec_print_spec n) as (_ & _ & H). eapply Forall_impl; [|exact H]. intros c. apply is_digit_iff. Qed.
Lemma dec_print_six n : (100000 <= n < 1000000)%N -> length (dec_print n) = 6%nat.
Proof.
  intros H. unfold dec_print. assert (L : (16 <= N.log2 n)%N) by (change 16%N with (N.log2 65536); apply N.log2_le_mono; lia).
  replace (S (N.to_nat (N.log2 n))) with (6 + (N.to_nat (N.log2 n) - 5))%nat by lia. cbn [dec_print_f plus].
  rewrite !N.div_div by lia. cbn [N.mul Pos.mul Pos.add Pos.succ].
  repeat match goal with |- context [N.eqb ?a 0] => let E := fresh in destruct (N.eqb_spec a 0) as [E|E]; [try (exfalso; apply N.div_small_iff in E; lia)|try (exfalso; apply E; apply N.div_small; lia)] end.
  all: reflexivity.
Qed.
Definition body (m x : Z) : str := let ds := dec_print (Z.to_N m) in if (-4 <=? x) && (x <? 6) then fixed x ds else expo x ds.
Definition sgn (neg : bool) : str := if neg then lit "-" else [].
Lemma point_cases f : point f = [] /\ f = [] \/ point f = "."%char :: f.
Proof. destruct f; [left|right]; auto. Qed.
Lemma Forall_app_l {A} (P : A -> Prop) a b : Forall P (a ++ b)%list -> Forall P a.
Proof. intros H. apply Forall_app in H. tauto. Qed.
Lemma two_digits_spec n : 0 <= n -> Forall digit (two_digits n) /\ two_digits n <> [] /\ dv (two_digits n) = n.
Proof.
  intros H. destruct (dec_print_spec (Z.to_N n)) as (A & B & C). assert (D := dec_print_digits (Z.to_N n)). unfold two_digits. destruct (Z.ltb_spec n 10).
  - split; [constructor; [notdigit|exact D]|]. split; [discriminate|]. change ("0"%char :: dec_print (Z.to_N n)) with ([ "0"%char ] ++ dec_print (Z.to_N n))%list. rewrite dv_app. change (dv ["0"%char]) with 0. unfold dv. rewrite A. lia.
  - split; [exact D|]. split; [exact B|]. unfold dv. rewrite A. lia.
Qed.
Lemma shift_eq s k m e : dv s * 10 ^ Z.of_nat k = m -> (iZ (dv s) * pow 10 (e + Z.of_nat k) == iZ m * pow 10 e)%Q.
Proof. intros <-. rewrite inject_Z_mult, <- pow_Z by lia. rewrite pow_add by lia. ring. Qed.
Lemma body_numeral neg m x : 100000 <= m < 1000000 -> exists q, numeral (sgn neg ++ body m x) (signed neg q) /\ (q == of_six m x)%Q.
Proof.
  intros Hm. unfold body. cbv zeta. set (ds := dec_print (Z.to_N m)). assert (Hl : length ds = 6%nat) by (apply dec_print_six; lia). assert (Hd : Forall digit ds) by apply dec_print_digits.
  assert (Hv : dv ds = m) by (unfold dv, ds; rewrite (proj1 (dec_print_spec _)); lia). assert (Hs : sign_text (sgn neg) neg) by (destruct neg; [right; right|left]; split; reflexivity).
  assert (S1 : forall n, (0 < n <= 6)%nat -> exists k, Forall digit (firstn n ds) /\ Forall digit (strip0 (skipn n ds)) /\ (firstn n ds ++ strip0 (skipn n ds))%list <> [] /\
    (length (strip0 (skipn n ds)) + k = 6 - n)%nat /\ dv (firstn n ds ++ strip0 (skipn n ds)) * 10 ^ Z.of_nat k = m).
  { intros n Hn. destruct (strip0_spec (skipn n ds)) as [k K]. exists k.
    assert (E : ds = ((firstn n ds ++ strip0 (skipn n ds)) ++ repeat "0"%char k)%list) by (rewrite <- app_assoc, <- K, firstn_skipn; reflexivity).
    assert (Hd' := Hd). rewrite E in Hd'. apply Forall_app_l in Hd'. apply Forall_app in Hd'. destruct Hd' as [D1 D2]. split; [exact D1|]. split; [exact D2|]. split.
    - intros Z. assert (length (firstn n ds) = n) by (apply firstn_length_le; lia). destruct (firstn n ds); [cbn in H; lia|discriminate].
    - split.
      + assert (G : length (skipn n ds) = (6 - n)%nat) by (rewrite skipn_length; lia). rewrite K, app_length, repeat_length in G. exact G.
      + rewrite <- Hv. rewrite E at 3. rewrite (dv_app _ (repeat "0"%char k)), dv_zeros, repeat_length. lia. }
  destruct ((-4 <=? x) && (x <? 6)) eqn:R.
  - apply andb_true_iff in R. destruct R as [R1 R2]. apply Z.leb_le in R1. apply Z.ltb_lt in R2. unfold fixed. destruct (Z.leb_spec 0 x) as [L|L].
    + set (n := Z.to_nat (x + 1)) in *. destruct (S1 n) as (k & D1 & D2 & N & Hk & V); [lia|]. set (a := firstn n ds) in *. set (f := strip0 (skipn n ds)) in *.
      exists (iZ (dv (a ++ f)) * pow 10 (0 - Z.of_nat (length f)))%Q. split.
      * replace (sgn neg ++ a ++ point f)%list with (sgn neg ++ a ++ point f ++ [])%list by (rewrite app_nil_r; reflexivity). apply num; [exact Hs|exact D1|exact D2|apply point_cases|exact N|constructor].
      * unfold of_six. replace (0 - Z.of_nat (length f)) with (x - 5 + Z.of_nat k) by lia. apply shift_eq, V.
    + destruct (strip0_spec ds) as [k K]. assert (D := Hd). rewrite K in D. apply Forall_app_l in D. assert (V : dv (strip0 ds) * 10 ^ Z.of_nat k = m) by (rewrite <- Hv; rewrite K at 2; rewrite dv_app, dv_zeros, repeat_length; lia).
      assert (G := Hl). rewrite K, app_length, repeat_length in G. set (z := Z.to_nat (- x - 1)) in *. set (f := (repeat "0"%char z ++ strip0 ds)%list).
      assert (Lf : length f = (z + length (strip0 ds))%nat) by (unfold f; rewrite app_length, repeat_length; reflexivity).
      assert (Vf : dv (lit "0" ++ f) = dv (strip0 ds)) by (rewrite dv_app; change (dv (lit "0")) with 0; unfold f; rewrite dv_app, dv_zeros; lia).
      exists (iZ (dv (lit "0" ++ f)) * pow 10 (0 - Z.of_nat (length f)))%Q. split.
      * replace (sgn neg ++ lit "0" ++ point f)%list with (sgn neg ++ lit "0" ++ point f ++ [])%list by (rewrite app_nil_r; reflexivity).
        apply num; [exact Hs|repeat constructor; notdigit|apply Forall_app; split; [apply zeros_digits|exact D]|apply point_cases|discriminate|constructor].
      * rewrite Vf. unfold of_six. replace (0 - Z.of_nat (length f)) with (x - 5 + Z.of_nat k) by lia. apply shift_eq, V.
  - clear R. unfold expo. destruct (S1 1%nat) as (k & D1 & D2 & N & Hk & V); [lia|]. set (a := firstn 1 ds) in *. set (f := strip0 (skipn 1 ds)) in *.
    destruct (two_digits_spec (Z.abs x) ltac:(lia)) as (T1 & T2 & T3).
    exists (iZ (dv (a ++ f)) * pow 10 (x - Z.of_nat (length f)))%Q. split.
    + apply num; [exact Hs|exact D1|exact D2|apply point_cases|exact N|].
      assert (Ex : exponent_text ("e"%char :: (if x <? 0 then lit "-" else lit "+") ++ two_digits (Z.abs x)) (if (x <? 0)%Z then - Z.of_N (dec_val (two_digits (Z.abs x))) else Z.of_N (dec_val (two_digits (Z.abs x))))).
      { apply (an_exp "e" (if x <? 0 then lit "-" else lit "+") (x <? 0)); [left; reflexivity| |exact T1|exact T2]. destruct (x <? 0); [right; right|right; left]; split; reflexivity. }
      unfold dv in T3. rewrite T3 in Ex. replace (if x <? 0 then - Z.abs x else Z.abs x) with x in Ex by (destruct (Z.ltb_spec x 0); lia). exact Ex.
    + unfold of_six. replace (x - Z.of_nat (length f)) with (x - 5 + Z.of_nat k) by lia. apply shift_eq, V.
Qed.
Lemma print_body x m e : 0 < d_m x -> is_six (amount x) m e -> print_g x = (sgn (d_neg x) ++ body m e)%list.
Proof.
  intros H S. unfold print_g. destruct (Z.eqb_spec (d_m x) 0) as [Z|_]; [lia|].
  assert (S' : is_six (amount x) (fst (if 0 <=? d_e x then six (d_m x * 2 ^ d_e x) 1 else six (d_m x) (2 ^ (- d_e x)))) (snd (if 0 <=? d_e x then six (d_m x * 2 ^ d_e x) 1 else six (d_m x) (2 ^ (- d_e x))))).
  { destruct (Z.leb_spec 0 (d_e x)) as [L|L].
    - apply six_is; [|lia|].
      + apply Z.mul_pos_pos; [lia|apply Z.pow_pos_nonneg; lia].
      + unfold amount. rewrite inject_Z_mult, pow_Z by exact L. ring.
    - apply six_is; [lia|apply Z.pow_pos_nonneg; lia|]. unfold amount. rewrite <- Qmult_assoc, pow_inv by lia. ring. }
  destruct (if 0 <=? d_e x then six (d_m x * 2 ^ d_e x) 1 else six (d_m x) (2 ^ (- d_e x))) as [m' e']. cbn [fst snd] in S'. destruct (is_six_unique _ _ _ _ _ S S') as [<- <-]. destruct (d_neg x); reflexivity.
Qed.
Lemma amount_pos x : is_double x -> 0 < d_m x -> (0 < amount x)%Q.
Proof. intros _ H. apply Qmult_lt_0_compat; [apply iZ_pos, H|apply pow_pos; lia]. Qed.
Lemma six_exists x : 0 < d_m x -> exists m e, is_six (amount x) m e.
Proof.
  intros H. destruct (Z_le_gt_dec 0 (d_e x)) as [L|L].
  - eexists _, _. apply (six_is (d_m x * 2 ^ d_e x) 1); [|lia|].
    + apply Z.mul_pos_pos; [lia|apply Z.pow_pos_nonneg; lia].
    + unfold amount. rewrite inject_Z_mult, pow_Z by exact L. ring.
  - eexists _, _. apply (six_is (d_m x) (2 ^ (- d_e x))); [lia|apply Z.pow_pos_nonneg; lia|]. unfold amount. rewrite <- Qmult_assoc, pow_inv by lia. ring.
Qed.
Lemma print_zero neg e : print_g (mkD neg 0 e) = (sgn neg ++ lit "0")%list.
Proof. destruct neg; reflexivity. Qed.
Lemma zero_numeral neg : numeral (sgn neg ++ lit "0") (signed neg (iZ 0 * pow 10 (0 - Z.of_nat 0))).
Proof.
  replace (sgn neg ++ lit "0")%list with (sgn neg ++ lit "0" ++ [] ++ [])%list by (rewrite !app_nil_r; reflexivity).
  apply (num (sgn neg) neg (lit "0") [] [] [] 0); [destruct neg; [right; right|left]; split; reflexivity|repeat constructor; notdigit|constructor|left; split; reflexivity|discriminate|constructor].
Qed.
Lemma signed_sub neg a b : (Qabs (signed neg a - signed neg b) == Qabs (a - b))%Q.
Proof. destruct neg; cbn [signed]; [|reflexivity]. rewrite <- Qabs_opp. apply Qabs_wd. ring. Qed.
Lemma value_amount x : value x = signed (d_neg x) (amount x).
Proof. reflexivity. Qed.
Lemma six_neg q : six_digits q -> six_digits (- q).
Proof. intros (m & e & H & E). exists (- m), e. split; [lia|]. rewrite E, inject_Z_opp. ring. Qed.
Lemma six_signed neg q : six_digits q -> six_digits (signed neg q).
Proof. destruct neg; [apply six_neg|auto]. Qed.
Lemma print_spec x : is_double x -> exists q, numeral (print_g x) q /\ six_digits q /\ (forall r, six_digits r -> Qabs (value x - q) <= Qabs (value x - r))%Q.
Proof.
  intros H. destruct (Z_lt_le_dec 0 (d_m x)) as [P|P].
  - destruct (six_exists x P) as (m & e & S). destruct (is_six_facts _ _ _ S) as (B & _ & _). rewrite (print_body x m e P S). destruct (body_numeral (d_neg x) m e B) as (q & N & E).
    exists (signed (d_neg x) q). split; [exact N|]. split; [apply six_signed; exists m, (e - 5); split; [lia|exact E]|]. intros r Hr. rewrite value_amount, signed_sub, E.
    eapply Qle_trans; [apply (is_six_best _ _ _ S (signed (d_neg x) r)), six_signed, Hr|]. rewrite <- (signed_sub (d_neg x)). destruct (d_neg x); cbn [signed]; [rewrite Qopp_involutive|]; apply Qle_refl.
  - assert (Z : d_m x = 0) by (destruct H; lia). destruct x as [neg m e]. cbn [d_m] in Z. subst m. rewrite print_zero. eexists. split; [apply zero_numeral|]. split.
    + apply six_signed. exists 0, 0. split; [lia|]. change (iZ 0) with 0%Q. ring.
    + intros r _. rewrite value_amount. unfold amount. cbn [d_neg d_m]. rewrite signed_sub. change (iZ 0) with 0%Q. assert (Z : (0 * pow 2 e - 0 * pow 10 (0 - Z.of_nat 0) == 0)%Q) by ring. rewrite Z. apply Qabs_nonneg.
Qed.

(** * Writing and reading back *)
(** the number as it comes back *)
Definition back (x : dbl) : option (option dbl) := read_lf (print_g x).
Lemma back_pos x m e : 0 < d_m x -> is_six (amount x) m e -> exists r, back x = Some r /\ reads (d_neg x) (of_six m e) r.
Proof.
  intros P S. destruct (is_six_facts _ _ _ S) as (B & _ & _). unfold back. rewrite (print_body x m e P S). destruct (body_numeral (d_neg x) m e B) as (q & N & E).
  destruct (read_numeral [] _ _ (Forall_nil _) N) as (neg & qa & r & E1 & E2 & E3 & E4). exists r. split; [exact E3|].
  assert (Q : (0 < of_six m e)%Q) by (apply Qmult_lt_0_compat; [apply iZ_pos; lia|apply pow_pos; lia]). rewrite <- E in Q.
  assert (neg = d_neg x /\ (qa == q)%Q) as [-> G].
  { assert (E1' : (signed (d_neg x) q == signed neg qa)%Q) by (rewrite E1; reflexivity). clear -E1' E2 Q. destruct neg, (d_neg x); cbn [signed] in E1'; try (exfalso; lra); (split; [reflexivity|lra]). }
  assert (G' : (qa == of_six m e)%Q) by (rewrite G; exact E). destruct E4 as [[A ->]|[A I]]; [exfalso; rewrite G in A; lra|]. right. split; [rewrite <- E; exact Q|]. apply (is_dbl_ext qa); assumption.
Qed.
Lemma is_dbl_fits q neg r : is_dbl q neg r -> (q <= largest)%Q -> exists x, r = Some x.
Proof.
  intros (L & k & m & e & [F1 F2] & N & C & R) H. destruct R as [[A _]|[_ ->]]; [exfalso|eexists; reflexivity].
  assert (HL : L < 1024). { apply (pow_lt_inv 2); [lia|]. eapply Qle_lt_trans; [exact F1|]. eapply Qle_lt_trans; [exact H|]. reflexivity. }
  destruct C as [(-> & -> & ->)|(Hk & -> & ->)]; [|lia]. destruct (Z.eq_dec L 1023) as [->|]; [|lia].
  assert (2 ^ 53 <= 2 ^ 53 - 1); [|lia]. apply (near_bounds' 2 q (Z.max (1023 - 52) (-1074))); [lia|exact N|exact H].
Qed.
Lemma amount_le x : is_double x -> (amount x <= largest)%Q.
Proof.
  intros H. unfold amount, largest. apply Qle_trans with (iZ (2 ^ 53 - 1) * pow 2 (d_e x))%Q.
  - apply Qmult_le_compat_r; [apply iZ_le; destruct H; lia|apply Qlt_le_weak, pow_pos; lia].
  - apply Qmult_le_l; [reflexivity|]. apply pow_le; [lia|]. destruct H; lia.
Qed.
(** the six digits of a double do not overflow *)
Lemma six_fits x m e : is_double x -> 0 < d_m x -> is_six (amount x) m e -> (of_six m e <= largest)%Q.
Proof.
  intros H P S. destruct (is_six_facts _ _ _ S) as (B & _ & X & k & [F1 F2] & N & K & E). rewrite E. assert (A := amount_le x H).
  assert (HX : X < 309) by (apply (pow_lt_inv 10); [lia|]; eapply Qle_lt_trans; [exact F1|]; eapply Qle_lt_trans; [exact A|vm_compute; reflexivity]).
  destruct (Z.eq_dec X 308) as [->|NX].
  - change (308 - 5) with 303 in *. assert (K2 : k <= 179769).
    { destruct (Z_le_gt_dec k 179769) as [G|G]; [exact G|exfalso]. assert (G' : (iZ 179770 * pow 10 303 <= iZ k * pow 10 303)%Q) by (apply Qmult_le_compat_r; [apply iZ_le; lia|apply Qlt_le_weak, pow_pos; lia]).
      destruct N as [N _]. pose proof (Qle_Qabs (- (amount x - iZ k * pow 10 303))) as T. rewrite Qabs_opp in T.
      assert (C : (largest * 2 + pow 10 303 < iZ 179770 * pow 10 303 * 2)%Q) by (vm_compute; reflexivity). lra. }
    apply Qle_trans with (iZ 179769 * pow 10 303)%Q; [apply Qmult_le_compat_r; [apply iZ_le; lia|apply Qlt_le_weak, pow_pos; lia]|]. vm_compute. discriminate.
  - assert (K2 : k <= 1000000) by (apply (near_bounds' 10 (amount x) (X - 5)); [lia|exact N|]; rewrite pow10_6 in F2; apply Qlt_le_weak, F2).
    apply Qle_trans with (iZ 1000000 * pow 10 (X - 5))%Q; [apply Qmult_le_compat_r; [apply iZ_le; lia|apply Qlt_le_weak, pow_pos; lia]|].
    change (iZ 1000000) with (1000000#1). rewrite <- pow10_6. apply Qle_trans with (pow 10 308); [apply pow_le; lia|vm_compute; discriminate].
Qed.
Lemma back_error x : is_double x -> 0 < d_m x -> exists w, back x = Some (Some w) /\ is_double w /\ d_neg w = d_neg x /\ (Qabs (amount w - amount x) * 100000 <= amount x)%Q /\ 0 < d_m w.
Proof.
  intros H P. destruct (six_exists x P) as (m & e & S). destruct (back_pos x m e P S) as (r & B & R). assert (F := six_fits x m e H P S). assert (PA := amount_pos x H P).
  destruct (is_six_facts _ _ _ S) as (M & G & _). assert (Q : (0 < of_six m e)%Q) by (apply Qmult_lt_0_compat; [apply iZ_pos; lia|apply pow_pos; lia]).
  destruct R as [[Z _]|[_ I]]; [exfalso; lra|]. destruct (is_dbl_fits _ _ _ I F) as [w ->]. destruct (is_dbl_facts _ _ _ I w eq_refl) as (D & N & C & _). exists w. split; [exact B|]. split; [exact D|]. split; [exact N|].
  assert (T : (Qabs (amount w - amount x) * 100000 <= amount x)%Q).
  { specialize (C x H). pose proof (Qabs_triangle (amount w - of_six m e) (of_six m e - amount x)) as T. setoid_replace (amount w - of_six m e + (of_six m e - amount x))%Q with (amount w - amount x)%Q in T by ring.
    rewrite (Qabs_Qminus (amount w) (of_six m e)) in T. rewrite (Qabs_Qminus (amount x) (of_six m e)) in G. lra. }
  split; [exact T|]. pose proof (Qle_Qabs (- (amount w - amount x))) as U. rewrite Qabs_opp in U. assert (W : (0 < amount w)%Q) by lra.
  assert (d_m w <> 0) by (intros Z; unfold amount in W; rewrite Z, Qmult_0_l in W; lra). destruct D; lia.
Qed.
Lemma six_dbl m e neg r : 100000 <= m < 1000000 -> (pow 2 (-1022) <= of_six m e)%Q -> (of_six m e <= largest)%Q -> reads neg (of_six m e) r ->
  exists w, r = Some w /\ is_double w /\ d_neg w = neg /\ 0 < d_m w /\ (Qabs (of_six m e - amount w) * iZ (2 ^ 53) <= of_six m e)%Q /\ back w = Some (Some w).
Proof.
  intros M L U R. assert (Q : (0 < of_six m e)%Q) by (apply Qmult_lt_0_compat; [apply iZ_pos; lia|apply pow_pos; lia]). destruct R as [[Z _]|[_ I]]; [exfalso; lra|].
  destruct (is_dbl_fits _ _ _ I U) as [w ->]. destruct (is_dbl_facts _ _ _ I w eq_refl) as (D & N & _ & C). specialize (C L). exists w. split; [reflexivity|]. split; [exact D|]. split; [exact N|].
  change (iZ (2 ^ 53)) with (9007199254740992#1) in *. pose proof (Qle_Qabs (of_six m e - amount w)) as T. assert (W : (0 < amount w)%Q) by lra.
  assert (P : 0 < d_m w). { assert (d_m w <> 0) by (intros Z; unfold amount in W; rewrite Z, Qmult_0_l in W; lra). destruct D; lia. }
  split; [exact P|]. split; [exact C|]. assert (S : is_six (amount w) m e).
  { replace e with (e - 5 + 5) by lia. apply six_back; [exact M|]. fold (of_six m e). rewrite Qabs_Qminus. pose proof (Qabs_nonneg (of_six m e - amount w)). lra. }
  destruct (back_pos w m e P S) as (r & B & R). rewrite B. f_equal. apply (reads_unique neg (of_six m e) (of_six m e)); [reflexivity|rewrite <- N; exact R|right; split; assumption].
Qed.
Lemma back_zero neg : back (mkD neg 0 (-1074)) = Some (Some (mkD neg 0 (-1074))).
Proof. destruct neg; vm_compute; reflexivity. Qed.
Lemma lo_range : (pow 2 (-1022) * 2 <= pow 10 (-307))%Q.
Proof. vm_compute. discriminate. Qed.
Lemma hi_range : (pow 10 307 * 2 <= largest)%Q.
Proof. vm_compute. discriminate. Qed.
Lemma back_twice x : is_double x -> ordinary (value x) -> exists w, back x = Some (Some w) /\ back w = Some (Some w).
Proof.
  intros H O. destruct (Z_lt_le_dec 0 (d_m x)) as [P|P].
  - destruct (six_exists x P) as (m & e & S). destruct (back_pos x m e P S) as (r & B & R). assert (F := six_fits x m e H P S). assert (PA := amount_pos x H P).
    destruct (is_six_facts _ _ _ S) as (M & G & _). assert (L : (pow 2 (-1022) <= of_six m e)%Q).
    { assert (V : (Qabs (value x) == amount x)%Q) by (rewrite value_amount; destruct (d_neg x); cbn [signed]; rewrite ?Qabs_opp; apply Qabs_pos, Qlt_le_weak, PA).
      destruct O as [O|[O _]]; [exfalso; rewrite O in V; change (Qabs 0) with 0%Q in V; lra|]. rewrite V in O. pose proof lo_range. pose proof (Qle_Qabs (amount x - of_six m e)). pose proof (pow_pos 2 (-1022) ltac:(lia)). lra. }
    destruct (six_dbl m e (d_neg x) r M L F R) as (w & -> & _ & _ & _ & _ & W). exists w. split; assumption.
  - assert (Z : d_m x = 0) by (destruct H; lia). assert (E : d_e x = -1074) by (destruct H; lia). destruct x as [neg m e]. cbn [d_m d_e] in *. subst m e. exists (mkD neg 0 (-1074)). split; apply back_zero.
Qed.
Lemma normal_six m : 0 < m < 1000000 -> exists k, 0 <= k /\ 100000 <= m * 10 ^ k < 1000000.
Proof.
  intros H. destruct (Z_le_gt_dec 100000 m); [exists 0; lia|]. destruct (Z_le_gt_dec 10000 m); [exists 1; lia|]. destruct (Z_le_gt_dec 1000 m); [exists 2; lia|].
  destruct (Z_le_gt_dec 100 m); [exists 3; lia|]. destruct (Z_le_gt_dec 10 m); [exists 4; lia|]. exists 5. lia.
Qed.
Lemma six_digits_of q : six_digits q -> (0 < q)%Q -> exists m x, 100000 <= m < 1000000 /\ (q == of_six m x)%Q.
Proof.
  intros (m & e & Hm & E) H. assert (P : 0 < m).
  { destruct (Z_lt_le_dec 0 m) as [L|L]; [exact L|exfalso]. assert (pe := pow_pos 10 e ltac:(lia)). assert ((iZ m * pow 10 e <= 0)%Q); [|lra]. setoid_replace 0%Q with (0 * pow 10 e)%Q by ring. apply Qmult_le_compat_r; [apply (iZ_le m 0 L)|lra]. }
  destruct (normal_six m ltac:(lia)) as (k & K & B). exists (m * 10 ^ k), (e - k + 5). split; [exact B|]. unfold of_six. replace (e - k + 5 - 5) with (e - k) by lia. rewrite inject_Z_mult, <- pow_Z, <- Qmult_assoc, <- pow_add by lia.
  replace (k + (e - k)) with e by lia. exact E.
Qed.
Lemma back_six w s q : Forall white w -> numeral s q -> six_digits q -> ordinary q -> exists x, read_lf (w ++ s) = Some (Some x) /\ back x = Some (Some x).
Proof.
  intros Hw N S O. destruct (read_numeral w s q Hw N) as (neg & qa & r & E & P & R1 & R2). assert (A : (Qabs q == qa)%Q) by (subst q; destruct neg; cbn [signed]; rewrite ?Qabs_opp; apply Qabs_pos, P).
  destruct R2 as [[Z ->]|[P' I]].
  - exists (mkD neg 0 (-1074)). split; [exact R1|apply back_zero].
  - assert (S' : six_digits qa) by (subst q; destruct neg; cbn [signed] in S; [|exact S]; apply six_neg in S; destruct S as (m & e & S1 & S2); exists m, e; split; [exact S1|]; rewrite <- S2; ring).
    destruct (six_digits_of qa S' P') as (m & x & B & Eq). destruct O as [O|[O1 O2]]; [exfalso; rewrite O in A; change (Qabs 0) with 0%Q in A; lra|]. rewrite A, Eq in O1, O2.
    pose proof lo_range. pose proof hi_range. pose proof (pow_pos 2 (-1022) ltac:(lia)). pose proof (pow_pos 10 307 ltac:(lia)).
    destruct (six_dbl m x neg r B) as (v & -> & _ & _ & _ & _ & W); [lra|lra|right; split; [lra|apply (is_dbl_ext qa); assumption]|]. exists v. split; assumption.
Qed.
Lemma amount_nonneg x : is_double x -> (0 <= amount x)%Q.
Proof. intros H. apply Qmult_le_0_compat; [apply (iZ_le 0); destruct H; lia|apply Qlt_le_weak, pow_pos; lia]. Qed.
Lemma signed_far neg q y : (0 <= q)%Q -> is_double y -> (Qabs (q - amount y) <= Qabs (signed neg q - value y))%Q.
Proof.
  intros Hq Hy. assert (A := amount_nonneg y Hy). rewrite value_amount. destruct (Bool.bool_dec neg (d_neg y)) as [<-|N]; [rewrite signed_sub; apply Qle_refl|].
  assert (G : (Qabs (signed neg q - signed (d_neg y) (amount y)) == q + amount y)%Q).
  { destruct neg, (d_neg y); cbn [signed]; try contradiction; [setoid_replace (- q - amount y)%Q with (- (q + amount y))%Q by ring; rewrite Qabs_opp|setoid_replace (q - - amount y)%Q with (q + amount y)%Q by ring]; apply Qabs_pos; lra. }
  rewrite G. apply Qabs_Qle_condition. lra.
Qed.
Lemma read_closest w s q : Forall white w -> numeral s q -> exists r, read_lf (w ++ s) = Some r /\ match r with Some x => closest q x /\ (q < 0 -> d_neg x = true)%Q | None => (largest < Qabs q)%Q end.
Proof.
  intros Hw N. destruct (read_numeral w s q Hw N) as (neg & qa & r & E & P & R1 & R2). exists r. split; [exact R1|]. assert (A : (Qabs q == qa)%Q) by (subst q; destruct neg; cbn [signed]; rewrite ?Qabs_opp; apply Qabs_pos, P).
  assert (Sg : (q < 0 -> neg = true)%Q) by (intros L; destruct neg; [reflexivity|exfalso; cbn [signed] in E; subst q; lra]).
  destruct R2 as [[Z ->]|[P' I]].
  - split; [|exact Sg]. split; [right; cbn [d_m d_e]; lia|]. intros y Hy. assert (V : (value (mkD neg 0 (-1074)) == 0)%Q) by (destruct neg; reflexivity).
    assert (Q : (q == 0)%Q) by (subst q; destruct neg; cbn [signed]; lra). rewrite V, Q. change (Qabs (0 - 0)) with 0%Q. apply Qabs_nonneg.
  - destruct r as [x|].
    + destruct (is_dbl_facts _ _ _ I x eq_refl) as (D & Ng & C & _). split; [|rewrite Ng; exact Sg]. split; [exact D|]. intros y Hy. subst q. rewrite value_amount, Ng, signed_sub. eapply Qle_trans; [apply (C y Hy)|apply signed_far; [exact P|exact Hy]].
    + rewrite A. apply Qnot_le_lt. intros L. destruct (is_dbl_fits _ _ _ I L) as [x X]. discriminate.
Qed.

(** * Parameters *)
Lemma get_set_double c k x old w : back x = Some w -> get_double (set_double c k x) k old = (true, w).
Proof. unfold back. intros H. unfold get_double, set_double. rewrite get_value_set. destruct (str_eq_dec k k); [|contradiction]. rewrite H. reflexivity. Qed.
Lemma back_some x : is_double x -> exists w, back x = Some (Some w) /\ is_double w /\ d_neg w = d_neg x /\ (Qabs (amount w - amount x) * 100000 <= amount x)%Q.
Proof.
  intros H. destruct (Z_lt_le_dec 0 (d_m x)) as [P|P].
  - destruct (back_error x H P) as (w & B & D & N & G & _). exists w. repeat split; assumption.
  - assert (Z : d_m x = 0) by (destruct H; lia). assert (E : d_e x = -1074) by (destruct H; lia). destruct x as [neg m e]. cbn [d_m d_e] in *. subst m e. exists (mkD neg 0 (-1074)). split; [apply back_zero|]. split; [exact H|]. split; [reflexivity|].
    vm_compute. discriminate.
Qed.
Lemma double_error c k x old : is_double x -> exists w, get_double (set_double c k x) k old = (true, Some w) /\ is_double w /\ d_neg w = d_neg x /\ (Qabs (value w - value x) <= (1 # 100000) * Qabs (value x))%Q.
Proof.
  intros H. destruct (back_some x H) as (w & B & D & N & G). exists w. split; [apply get_set_double, B|]. split; [exact D|]. split; [exact N|]. rewrite !value_amount, N, signed_sub.
  assert (V : (Qabs (signed (d_neg x) (amount x)) == amount x)%Q) by (destruct (d_neg x); cbn [signed]; rewrite ?Qabs_opp; apply Qabs_pos, amount_nonneg, H). rewrite V. lra.
Qed.
Lemma join_commas l : join_doubles l = commas (map print_g l).
Proof. induction l as [|x [|y l] IH]; [reflexivity|reflexivity|]. change (join_doubles (x :: y :: l)) with (print_g x ++ ","%char :: join_doubles (y :: l))%list. rewrite IH. reflexivity. Qed.
Lemma double_array c k l : Forall is_double l -> l <> [] ->
  get_array_double (set_array_double c k l) k = Ok (true, map (fun x => snd (get_double (set_double c k x) k zero)) l).
Proof.
  intros H N. unfold get_array_double, set_array_double. rewrite get_value_set. destruct (str_eq_dec k k); [|contradiction]. rewrite join_commas, split_commas.
  - clear N. induction H as [|x l Hx H IH]; [reflexivity|]. destruct (back_some x Hx) as (w & B & _). cbn [map read_parts]. unfold back in B. rewrite B. rewrite (get_set_double c k x zero (Some w) B).
    destruct (read_parts (map print_g l)); cbn [bind] in IH |- *; try discriminate. injection IH as ->. reflexivity.
  - apply Forall_forall. intros s I. apply in_map_iff in I. destruct I as (x & <- & I). rewrite Forall_forall in H. destruct (print_spec x (H x I)) as (q & Q & _). apply (numeral_nocomma _ _ Q).
  - destruct l; [contradiction|discriminate].
Qed.
(** the text fits a line of a file *)
Lemma num_chars_good s : Forall (fun c => (43 <= N_of_ascii c)%N) s -> good_value s.
Proof.
  intros H. rewrite Forall_forall in H. assert (B : forall c, In c s -> ~ blank c) by (intros c I [-> | ->]; specialize (H _ I); cbn in H; lia). split; [split|split].
  - intros c t ->. apply B. left. reflexivity.
  - intros c t ->. apply B. apply in_app_iff. right. left. reflexivity.
  - intros I. specialize (H _ I). cbn in H. lia.
  - intros I. specialize (H _ I). cbn in H. lia.
Qed.
Lemma sign_chars sg neg : sign_text sg neg -> Forall (fun c => (43 <= N_of_ascii c)%N) sg.
Proof. intros [[-> _]|[[-> _]|[-> _]]]; repeat constructor; cbn; lia. Qed.
Lemma digit_chars d : Forall digit d -> Forall (fun c => (43 <= N_of_ascii c)%N) d.
Proof. apply Forall_impl. unfold digit. intros; lia. Qed.
Lemma numeral_good s q : numeral s q -> good_value s.
Proof.
  intros [sg neg a f fr ex e Hs Ha Hf Hfr Hn He]. apply num_chars_good. rewrite !Forall_app. split; [eapply sign_chars, Hs|]. split; [apply digit_chars, Ha|]. split.
  - destruct Hfr as [[-> _]| ->]; constructor; [cbn; lia|apply digit_chars, Hf].
  - destruct He as [|c sg' neg' d Hc Hs' Hd Hn']; constructor; [destruct Hc as [-> | ->]; cbn; lia|]. apply Forall_app. split; [eapply sign_chars, Hs'|apply digit_chars, Hd].
Qed.
(** of two equally close doubles the even one *)
Lemma is_dbl_tie q neg x y : is_dbl q neg (Some x) -> is_double y -> (Qabs (q - amount x) == Qabs (q - amount y))%Q -> ~ (amount x == amount y)%Q -> Z.even (d_m x) = true.
Proof.
  intros I Hy T N. destruct I as (L & k & m & e & [F1 F2] & Nr & C & R). set (e0 := Z.max (L - 52) (-1074)) in *. assert (P := pow_pos 2 e0 ltac:(lia)).
  destruct R as [[_ R]|[He R]]; [discriminate|]. injection R as ->. cbn [d_m].
  assert (V : (amount (mkD neg m e) == iZ k * pow 2 e0)%Q).
  { unfold amount. cbn [d_m d_e]. destruct C as [(-> & -> & ->)|(H & -> & ->)]; [|reflexivity]. rewrite pow_add by lia. change (iZ (2 ^ 53)) with (iZ (2 ^ 52) * 2)%Q. change (pow 2 1) with 2%Q. ring. }
  assert (M : exists j, (amount y == iZ j * pow 2 e0)%Q).
  { destruct (Z_le_gt_dec e0 (d_e y)) as [G|G]; [apply (double_multiple (d_m y) (d_e y) e0 G)|].
    exists (2 ^ 52). assert (E0 : e0 = L - 52) by (destruct Hy; lia). assert (Lq : (iZ (2 ^ 52) * pow 2 e0 <= q)%Q) by (rewrite E0, <- pow2_52; exact F1).
    assert (Ly : (amount y <= iZ (2 ^ 52) * pow 2 e0)%Q).
    { unfold amount. apply Qle_trans with (iZ (2 ^ 53) * pow 2 (d_e y))%Q; [apply Qmult_le_compat_r; [apply iZ_le; destruct Hy as [Hy|Hy]; lia|apply Qlt_le_weak, pow_pos; lia]|].
      replace (d_e y) with (d_e y + 52 - 52) by lia. rewrite <- pow2_53. replace e0 with (e0 + 52 - 52) by lia. rewrite <- pow2_52. apply pow_le; lia. }
    pose proof (near_best q (pow 2 e0) k (2 ^ 52) P Nr) as B. rewrite <- V, T in B. rewrite !Qabs_pos in B by lra. lra. }
  destruct M as [j J]. assert (Hjk : j <> k) by (intros ->; apply N; rewrite V, J; reflexivity).
  assert (Ek : Z.even k = true).
  { destruct Nr as [N1 N2]. rewrite V, J in T. apply N2. apply Qle_antisym; [exact N1|].
    assert (H : (pow 2 e0 <= Qabs (iZ k * pow 2 e0 - iZ j * pow 2 e0))%Q).
    { setoid_replace (iZ k * pow 2 e0 - iZ j * pow 2 e0)%Q with (iZ (k - j) * pow 2 e0)%Q by (unfold Zminus; rewrite inject_Z_plus, inject_Z_opp; ring).
      rewrite Qabs_Qmult, (Qabs_pos (pow 2 e0)) by (apply Qlt_le_weak, P). rewrite iZ_abs. assert (1 <= iZ (Z.abs (k - j)))%Q by (change 1%Q with (iZ 1); apply iZ_le; lia).
      rewrite <- (Qmult_1_l (pow 2 e0)) at 1. apply Qmult_le_compat_r; [assumption|apply Qlt_le_weak, P]. }
    pose proof (Qabs_triangle (iZ k * pow 2 e0 - q) (q - iZ j * pow 2 e0)) as Tr. setoid_replace (iZ k * pow 2 e0 - q + (q - iZ j * pow 2 e0))%Q with (iZ k * pow 2 e0 - iZ j * pow 2 e0)%Q in Tr by ring.
    rewrite (Qabs_Qminus (iZ k * pow 2 e0) q) in Tr. set (a := Qabs (q - iZ k * pow 2 e0)) in *. set (b := Qabs (q - iZ j * pow 2 e0)) in *. set (c := Qabs (iZ k * pow 2 e0 - iZ j * pow 2 e0)) in *. lra. }
  destruct C as [(_ & -> & _)|(_ & -> & _)]; [reflexivity|exact Ek].
Qed.
Lemma read_tie w s q x y : Forall white w -> numeral s q -> read_lf (w ++ s) = Some (Some x) -> is_double y -> (Qabs (q - value x) == Qabs (q - value y))%Q -> ~ (value x == value y)%Q -> Z.even (d_m x) = true.
Proof.
  intros Hw N R Hy T D. destruct (read_numeral w s q Hw N) as (neg & qa & r & E & P & R1 & R2). rewrite R1 in R. injection R as ->. destruct R2 as [[Z X]|[P' I]]; [injection X as ->; reflexivity|].
  destruct (is_dbl_facts _ _ _ I x eq_refl) as (Dx & Ng & B & _). subst q. rewrite (value_amount x), Ng, signed_sub in T.
  assert (B1 := B y Hy). assert (B2 := signed_far neg qa y P Hy). assert (B0 := Qabs_nonneg (qa - amount x)).
  assert (Eq : (Qabs (qa - amount x) == Qabs (qa - amount y))%Q) by (apply Qle_antisym; [exact B1|rewrite T; exact B2]).
  apply (is_dbl_tie qa neg x y I Hy Eq). intros A. destruct (Bool.bool_dec neg (d_neg y)) as [G|G]; [apply D; rewrite !value_amount, Ng, <- G; destruct neg; cbn [signed]; rewrite A; reflexivity|].
  assert (Ay := amount_nonneg y Hy). assert (F : (Qabs (signed neg qa - value y) == qa + amount y)%Q).
  { rewrite value_amount. destruct neg, (d_neg y); cbn [signed]; try (exfalso; apply G; reflexivity); [setoid_replace (- qa - amount y)%Q with (- (qa + amount y))%Q by ring; rewrite Qabs_opp|setoid_replace (qa - - amount y)%Q with (qa + amount y)%Q by ring]; apply Qabs_pos; lra. }
  rewrite F in T. rewrite A in T. assert (Az : (amount y == 0)%Q).
  { destruct (Qlt_le_dec qa (amount y)) as [U|U]; [rewrite Qabs_neg in T by lra; lra|rewrite Qabs_pos in T by lra; lra]. }
  apply D. rewrite !value_amount, Ng. destruct neg, (d_neg y); cbn [signed]; lra.
Qed.
Lemma no_number_code s c : (forall x t, skip_space s = x :: t -> ~ digit x /\ x <> "-"%char /\ x <> "+"%char /\ x <> "."%char) -> c = s -> read_lf c = None.
Proof.
  intros H ->. unfold read_lf, scan_lf. destruct (skip_space s) as [|x t]; [reflexivity|]. destruct (H x t eq_refl) as (A & B & C & D). unfold sign_of.
  destruct (Ascii.eqb_spec x "-"); [contradiction|]. destruct (Ascii.eqb_spec x "+"); [contradiction|]. cbn [span_digits]. apply is_digit_false in A. rewrite A. cbn [length skipn]. destruct (Ascii.eqb_spec x "."); [contradiction|]. reflexivity.
Qed.
