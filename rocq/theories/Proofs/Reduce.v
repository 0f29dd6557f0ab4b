From Coq Require Import List NArith ZArith QArith Qabs Lia Lqa Bool.
From Verif Require Import Base Model.Reduce Spec.Reduce.
Import ListNotations.
Open Scope Q_scope.

Lemma Qltb_spec a b : Qltb a b = true <-> a < b.
Proof. unfold Qltb. rewrite negb_true_iff. split; intros H.
  - apply Qnot_le_lt. intros L. apply Qle_bool_iff in L. congruence.
  - destruct (Qle_bool b a) eqn:E; [|reflexivity]. apply Qle_bool_iff in E. lra.
Qed.
Lemma Qltb_false a b : Qltb a b = false <-> b <= a.
Proof. rewrite <- Qle_bool_iff. unfold Qltb. destruct (Qle_bool b a); cbn; split; congruence. Qed.

Lemma Forall2_map_r {A B} (P : A -> B -> Prop) (f : A -> B) l : (forall x, In x l -> P x (f x)) -> Forall2 P l (map f l).
Proof. induction l as [|a t IH]; intros H; cbn; constructor; [apply H; left; reflexivity|]. apply IH. intros x Hx. apply H. right. exact Hx. Qed.

Lemma norm2_le cabs v M : is_abs cabs v -> (forall c, In c v -> cabs c <= M) -> 0 <= M ->
  norm2 v <= inject_Z (Z.of_nat (length v)) * (M * M).
Proof.
  unfold norm2. induction v as [|c t IH]; intros HA HM H0; cbn [map qsum length].
  - change (inject_Z (Z.of_nat 0)) with 0. nra.
  - rewrite Nat2Z.inj_succ. unfold Z.succ. rewrite inject_Z_plus. destruct (HA c (or_introl eq_refl)) as [P E].
    assert (Hc : cabs c <= M) by (apply HM; left; reflexivity).
    assert (I : qsum (map (fun c => fst c * fst c + snd c * snd c) t) <= inject_Z (Z.of_nat (length t)) * (M * M)).
    { apply IH; [intros x Hx; apply HA; right; exact Hx|intros x Hx; apply HM; right; exact Hx|exact H0]. }
    assert (cabs c * cabs c <= M * M) by nra. change (inject_Z 1) with 1. lra.
Qed.

Lemma norm_le cabs v M norm : v <> [] -> is_abs cabs v -> (forall c, In c v -> cabs c <= M) -> 0 <= M -> 0 <= norm ->
  norm * norm == norm2 v -> norm / inject_Z (Z.of_nat (length v)) <= M.
Proof.
  intros HN HA HM H0 Hn E. pose proof (norm2_le cabs v M HA HM H0) as L. rewrite <- E in L.
  assert (N1 : 1 <= inject_Z (Z.of_nat (length v))).
  { change 1 with (inject_Z 1). rewrite <- Zle_Qle. destruct v; [congruence|]. cbn [length]. lia. }
  set (n := inject_Z (Z.of_nat (length v))) in *. apply Qle_shift_div_r; [lra|].
  destruct (Qlt_le_dec (M * n) norm) as [C|C]; [|exact C]. exfalso.
  assert (0 <= M * n) by nra. assert ((M * n) * (M * n) < norm * norm) by nra. assert (n * (M * M) <= (M * n) * (M * n)).
  { assert (Q0 : 0 <= M * M) by nra. assert (n * (M * M) <= n * n * (M * M)); [|lra]. apply Qmult_le_compat_r; [nra|exact Q0]. }
  lra.
Qed.

Lemma level_kept cabs norm tol psi M : psi <> [] -> is_abs cabs psi -> largest cabs psi M -> 0 <= norm -> norm * norm == norm2 psi ->
  0 <= tol -> (forall c, In c psi -> 0 <= fst c /\ 0 <= snd c) -> kept_or_small_vec (tol * M) psi (level_reduce norm tol psi).
Proof.
  intros HN HA [HM [c0 [Hc0 Ec0]]] Hn E Ht HP. unfold level_reduce, kept_or_small_vec. apply Forall2_map_r. intros c Hc.
  assert (HM0 : 0 <= M) by (rewrite <- Ec0; apply HA; exact Hc0).
  pose proof (norm_le cabs psi M norm HN HA HM HM0 Hn E) as L. set (k := norm / _) in *. destruct (HP c Hc) as [P1 P2].
  assert (K : forall x, 0 <= x -> kept_or_small (tol * M) x (level_comp (k * tol) x)).
  { intros x Hx. unfold level_comp, kept_or_small. destruct (Qltb x (k * tol)) eqn:EQ; [right|left; reflexivity].
    apply Qltb_spec in EQ. split; [reflexivity|]. rewrite Qabs_pos by exact Hx. nra. }
  split; apply K; assumption.
Qed.

Lemma level_exact norm tol psi : let thr := norm / inject_Z (Z.of_nat (length psi)) * tol in
  Forall2 (fun c d => (fst c < thr /\ fst d = 0 \/ ~ fst c < thr /\ fst d = fst c) /\
                      (snd c < thr /\ snd d = 0 \/ ~ snd c < thr /\ snd d = snd c)) psi (level_reduce norm tol psi).
Proof.
  intros thr. apply Forall2_map_r. intros c _. fold thr.
  assert (K : forall x, x < thr /\ level_comp thr x = 0 \/ ~ x < thr /\ level_comp thr x = x).
  { intros x. unfold level_comp. destruct (Qltb x thr) eqn:EQ; [left|right]; split; try reflexivity.
    - apply Qltb_spec. exact EQ.
    - apply Qltb_false in EQ. lra. }
  split; apply K.
Qed.

Lemma vec_max_largest cabs a t : exists M, vec_max cabs (a :: t) = Ok M /\ largest cabs (a :: t) M.
Proof.
  cbn [vec_max]. eexists. split; [reflexivity|].
  assert (K : forall t d, let M := fold_left (fun d x => if Qltb d (cabs x) then cabs x else d) t d in
    d <= M /\ (forall c, In c t -> cabs c <= M) /\ (M = d \/ exists c, In c t /\ cabs c = M)).
  { clear. induction t as [|x t IH]; intros d; cbn [fold_left].
    - split; [apply Qle_refl|]. split; [intros c []|left; reflexivity].
    - destruct (Qltb d (cabs x)) eqn:EQ.
      + apply Qltb_spec in EQ. destruct (IH (cabs x)) as (L & A & E). split; [lra|]. split.
        * intros c [<-|Hc]; [exact L|apply A; exact Hc].
        * right. destruct E as [E|(c & Hc & E)]; [exists x; split; [left; reflexivity|congruence]|exists c; split; [right; exact Hc|exact E]].
      + apply Qltb_false in EQ. destruct (IH d) as (L & A & E). split; [exact L|]. split.
        * intros c [<-|Hc]; [lra|apply A; exact Hc].
        * destruct E as [E|(c & Hc & E)]; [left; exact E|right; exists c; split; [right; exact Hc|exact E]]. }
  destruct (K t (cabs a)) as (L & A & E). split.
  - intros c [<-|Hc]; [exact L|apply A; exact Hc].
  - destruct E as [E|(c & Hc & E)]; [exists a; split; [left; reflexivity|congruence]|exists c; split; [right; exact Hc|exact E]].
Qed.

Lemma grid_ok cabs forward tol w : g_k w = false -> forward (g_vec w) <> [] ->
  exists w' out M, grid_reduce cabs forward tol w = Ok (w', out) /\ g_vec w' = g_vec w /\ g_k w' = false /\
    largest cabs (forward (g_vec w)) M /\
    reduced_vec (inject_Z (Z.of_nat (length (g_vec w)))) (M * tol) (forward (g_vec w)) out.
Proof.
  intros HK HF. unfold grid_reduce, fft_forward. rewrite HK. unfold set_k at 1 3. cbn [g_k Bool.eqb g_vec g_buf].
  destruct (forward (g_vec w)) as [|a t] eqn:EF; [congruence|]. destruct (vec_max_largest cabs a t) as (M & EM & LM).
  unfold set_k. cbn [g_k Bool.eqb g_vec g_buf]. rewrite EM. cbn [bind]. eexists _, _, M. split; [reflexivity|]. cbn [g_vec g_k].
  split; [reflexivity|]. split; [reflexivity|]. split; [exact LM|]. unfold reduced_vec. apply Forall2_map_r. intros c _.
  assert (K : forall s thr x, reduced s thr x (grid_comp s thr x)).
  { intros s thr x. unfold reduced, grid_comp. destruct (Qltb (Qabs x) thr) eqn:EQ; [left|right]; split; try reflexivity.
    - apply Qltb_spec. exact EQ.
    - apply Qltb_false in EQ. lra. }
  split; apply K.
Qed.

(** already in k space: the vector is overwritten with the transform of the stale buffer *)
Lemma grid_k cabs forward tol w : g_k w = true -> forward (g_buf w) <> [] ->
  exists w' out, grid_reduce cabs forward tol w = Ok (w', out) /\ g_vec w' = g_buf w /\ g_k w' = false.
Proof.
  intros HK HF. unfold grid_reduce, fft_forward. rewrite HK. unfold set_k. cbn [g_k Bool.eqb g_vec g_buf].
  destruct (forward (g_buf w)) as [|a t]; [congruence|]. cbn [vec_max bind]. eexists _, _. split; [reflexivity|]. cbn. auto.
Qed.
