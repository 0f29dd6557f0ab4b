From Coq Require Import List ZArith Lia Bool Arith Ring Field.
From Verif Require Import Base Arrays Algebra Model.Frequency Spec.Frequency.
Import ListNotations.
Open Scope Z_scope.

Lemma bin_low N i : 0 <= i -> 2 * i < N -> fft_bin N i i.
Proof. intros. split; [apply Z.mod_small; lia|lia]. Qed.
Lemma bin_high N i : 0 <= i < N -> N <= 2 * i -> fft_bin N i (i - N).
Proof.
  intros. split; [|lia]. replace (i - N) with (i + (-1) * N) by lia. rewrite Z.mod_add by lia. apply Z.mod_small. lia.
Qed.
(** numbers with the same remainder: equal, or at least N apart *)
Lemma same_rem N k k' : 0 < N -> k mod N = k' mod N -> k' = k \/ N <= k' - k \/ k' - k <= - N.
Proof.
  intros HN E. pose proof (Z.div_mod k N ltac:(lia)) as A. pose proof (Z.div_mod k' N ltac:(lia)) as B.
  assert (D : k' - k = (k' / N - k / N) * N) by (rewrite A, B at 1; rewrite E; ring).
  set (q := k' / N - k / N) in *. assert (q = 0 \/ 1 <= q \/ q <= -1) as [->|[Q|Q]] by lia; [left; lia|right; left|right; right].
  - pose proof (Z.mul_le_mono_nonneg_r 1 q N ltac:(lia) Q). lia.
  - pose proof (Z.mul_le_mono_nonneg_r q (-1) N ltac:(lia) Q). lia.
Qed.
Lemma bin_unique N i k k' : 0 < N -> fft_bin N i k -> fft_bin N i k' -> k = k'.
Proof.
  intros HN [A B] [C D]. pose proof (same_rem N k k' HN ltac:(congruence)). lia.
Qed.

Section FreqProofs.
  Variable F : fld.
  Add Field FF : (f_th F).
  Implicit Types ks : list F.

  Lemma rd_wr_ok ks i (x : F) : 0 <= i < zlen ks -> exists ks', wr ks i x = Ok ks' /\ zlen ks' = zlen ks /\
    forall j, rd ks' j = if j =? i then Ok x else rd ks j.
  Proof.
    intros H. exists (upd ks (Z.to_nat i) x). split; [apply wr_ok; exact H|]. split; [apply zlen_upd|].
    intros j. apply rd_upd. exact H.
  Qed.

  (** both initialisations follow one pattern: value [val k] at the bin of frequency k *)
  Lemma fill_even Nx (val : Z -> F) (lo hi : Z -> F) ks : 0 <= Nx -> Z.rem Nx 2 = 0 -> zlen ks = Nx ->
    (forall i, 0 <= i -> lo i = val i) -> (forall i, 0 <= i -> hi i = val (- (i + 1))) ->
    exists ks', foldM (fun ks i => let* ks := wr ks i (lo i) in wr ks (Nx - i - 1) (hi i)) (upto 0 (Z.quot Nx 2)) ks = Ok ks' /\
      zlen ks' = Nx /\ forall i, 0 <= i < Nx -> exists k, fft_bin Nx i k /\ rd ks' i = Ok (val k).
  Proof.
    intros HN Hev HL Hlo Hhi. assert (E : Nx = 2 * Z.quot Nx 2) by (pose proof (Z.quot_rem' Nx 2); lia).
    set (M := Z.quot Nx 2) in *.
    destruct (foldM_upto (fun ks i => let* ks := wr ks i (lo i) in wr ks (Nx - i - 1) (hi i))
      (fun m ks => zlen ks = Nx /\ forall i, 0 <= i < m \/ Nx - m <= i < Nx ->
          exists k, fft_bin Nx i k /\ rd ks i = Ok (val k)) 0 M ks) as (ks' & E1 & L & P).
    - lia.
    - split; [assumption|]. intros i Hi. lia.
    - intros m s Hm [Ls Ps]. destruct (rd_wr_ok s m (lo m)) as (s1 & W1 & L1 & R1); [lia|]. rewrite W1. cbn [bind].
      destruct (rd_wr_ok s1 (Nx - m - 1) (hi m)) as (s2 & W2 & L2 & R2); [lia|]. exists s2. split; [exact W2|].
      split; [lia|]. intros i Hi. rewrite R2, R1. destruct (i =? Nx - m - 1) eqn:E1.
      + apply Z.eqb_eq in E1. exists (i - Nx). split; [apply bin_high; lia|]. rewrite Hhi by lia. do 2 f_equal. lia.
      + apply Z.eqb_neq in E1. destruct (i =? m) eqn:E2.
        * apply Z.eqb_eq in E2. exists i. split; [apply bin_low; lia|]. rewrite Hlo by lia. subst; reflexivity.
        * apply Z.eqb_neq in E2. apply Ps. lia.
    - exists ks'. split; [exact E1|]. split; [exact L|]. intros i Hi. apply P. lia.
  Qed.

  Lemma fill_odd Nx (val : Z -> F) (lo hi : Z -> F) ks : 0 <= Nx -> Z.rem Nx 2 <> 0 -> zlen ks = Nx ->
    val 0 = c0 -> (forall i, 0 <= i -> lo i = val i) -> (forall i, 0 <= i -> hi i = val (- i)) ->
    exists ks', (let* ks := wr ks 0 c0 in
      foldM (fun ks i => let* ks := wr ks i (lo i) in wr ks (Nx - i) (hi i)) (upto 1 (Z.quot (Nx + 1) 2)) ks) = Ok ks' /\
      zlen ks' = Nx /\ forall i, 0 <= i < Nx -> exists k, fft_bin Nx i k /\ rd ks' i = Ok (val k).
  Proof.
    intros HN Hodd HL H0 Hlo Hhi.
    assert (B : Z.rem Nx 2 = 1). { pose proof (Z.rem_bound_pos Nx 2). lia. }
    assert (E : Nx = 2 * Z.quot Nx 2 + 1) by (pose proof (Z.quot_rem' Nx 2); lia).
    assert (EM : Z.quot (Nx + 1) 2 = Z.quot Nx 2 + 1).
    { rewrite E at 1. replace (2 * Z.quot Nx 2 + 1 + 1) with ((Z.quot Nx 2 + 1) * 2) by ring. apply Z.quot_mul. lia. }
    rewrite EM. set (M := Z.quot Nx 2) in *.
    destruct (rd_wr_ok ks 0 c0) as (s0 & W0 & L0 & R0); [lia|]. rewrite W0. cbn [bind].
    destruct (foldM_upto (fun ks i => let* ks := wr ks i (lo i) in wr ks (Nx - i) (hi i))
      (fun m ks => zlen ks = Nx /\ forall i, 0 <= i < m \/ Nx - m < i < Nx ->
          exists k, fft_bin Nx i k /\ rd ks i = Ok (val k)) 1 (M + 1) s0) as (ks' & E1 & L & P).
    - lia.
    - split; [lia|]. intros i Hi. exists 0. assert (i = 0) by lia. subst i. split; [apply bin_low; lia|].
      rewrite R0. cbn. rewrite H0. reflexivity.
    - intros m s Hm [Ls Ps]. destruct (rd_wr_ok s m (lo m)) as (s1 & W1 & L1 & R1); [lia|]. rewrite W1. cbn [bind].
      destruct (rd_wr_ok s1 (Nx - m) (hi m)) as (s2 & W2 & L2 & R2); [lia|]. exists s2. split; [exact W2|].
      split; [lia|]. intros i Hi. rewrite R2, R1. destruct (i =? Nx - m) eqn:E1.
      + apply Z.eqb_eq in E1. exists (i - Nx). split; [apply bin_high; lia|]. rewrite Hhi by lia. do 2 f_equal. lia.
      + apply Z.eqb_neq in E1. destruct (i =? m) eqn:E2.
        * apply Z.eqb_eq in E2. exists i. split; [apply bin_low; lia|]. rewrite Hlo by lia. subst; reflexivity.
        * apply Z.eqb_neq in E2. apply Ps. lia.
    - exists ks'. split; [exact E1|]. split; [exact L|]. intros i Hi. apply P. lia.
  Qed.

  Lemma zlen_repeat (x : F) n : 0 <= n -> zlen (repeat x (Z.to_nat n)) = n.
  Proof. intros. unfold zlen. rewrite repeat_length. lia. Qed.

  Lemma ddx_spec (dk factor : F) Nx : 0 <= Nx ->
    exists ks, Init1Dddx F dk Nx factor = Ok ks /\ zlen ks = Nx /\
      forall i, 0 <= i < Nx -> exists k, fft_bin Nx i k /\ rd ks i = Ok (ofZ k * dk * factor)%cr.
  Proof.
    intros HN. unfold Init1Dddx. destruct (Z.rem Nx 2 =? 0) eqn:E.
    - apply Z.eqb_eq in E. apply (fill_even Nx (fun k => (ofZ k * dk * factor)%cr) (fun i => (ofZ i * (dk * factor))%cr)
        (fun i => (ofZ (-1) * ofZ (i + 1) * (dk * factor))%cr)); auto using zlen_repeat.
      + intros i _. ring.
      + intros i _. rewrite !ofZ_opp, ofZ_m1. ring.
    - apply Z.eqb_neq in E. apply (fill_odd Nx (fun k => (ofZ k * dk * factor)%cr) (fun i => (ofZ i * (dk * factor))%cr)
        (fun i => (ofZ (-1) * ofZ i * (dk * factor))%cr)); auto using zlen_repeat.
      + rewrite ofZ_0. ring.
      + intros i _. ring.
      + intros i _. rewrite !ofZ_opp, ofZ_m1. ring.
  Qed.
  Lemma d2dx2_spec (dk factor : F) Nx : 0 <= Nx ->
    exists ks, Init1Dd2dx2 F dk Nx factor = Ok ks /\ zlen ks = Nx /\
      forall i, 0 <= i < Nx -> exists k, fft_bin Nx i k /\
        rd ks i = Ok (- (factor * ((ofZ k * dk) * (ofZ k * dk))))%cr.
  Proof.
    intros HN. unfold Init1Dd2dx2.
    set (val := fun k => (- (factor * ((ofZ k * dk) * (ofZ k * dk))))%cr : F). destruct (Z.rem Nx 2 =? 0) eqn:E.
    - apply Z.eqb_eq in E. apply (fill_even Nx val (fun i => (ofZ i * ofZ i * (dk * dk * - factor))%cr)
        (fun i => (ofZ (i + 1) * ofZ (i + 1) * (dk * dk * - factor))%cr)); auto using zlen_repeat; unfold val.
      + intros i _. ring.
      + intros i _. rewrite !ofZ_opp. ring.
    - apply Z.eqb_neq in E. apply (fill_odd Nx val (fun i => (ofZ i * ofZ i * (dk * dk * - factor))%cr)
        (fun i => (ofZ i * ofZ i * (dk * dk * - factor))%cr)); auto using zlen_repeat; unfold val.
      + rewrite ofZ_0. ring.
      + intros i _. ring.
      + intros i _. rewrite !ofZ_opp. ring.
  Qed.
  Lemma d2dx2_mass_spec (dk mass : F) Nx : 0 <= Nx -> mass <> c0 -> ofZ 2 <> c0 :> F ->
    exists ks, Init1Dd2dx2_mass F dk Nx mass = Ok ks /\ zlen ks = Nx /\
      forall i, 0 <= i < Nx -> exists k, fft_bin Nx i k /\
        rd ks i = Ok ((ofZ k * dk) * (ofZ k * dk) / (ofZ 2 * mass))%cr.
  Proof.
    intros HN Hm H2. destruct (d2dx2_spec dk (ofZ (-1) / (ofZ 2 * mass))%cr Nx HN) as (ks & A & B & C).
    exists ks. split; [exact A|]. split; [exact B|]. intros i Hi. destruct (C i Hi) as (k & K1 & K2). exists k.
    split; [exact K1|]. rewrite K2. f_equal. rewrite ofZ_m1. field. auto.
  Qed.
  Lemma Dk_spec (twopi xmin xmax : F) N : ofZ N <> c0 :> F -> ofZ (N - 1) <> c0 :> F -> (xmax - xmin)%cr <> c0 ->
    (Dk F twopi xmin xmax N = twopi / (ofZ N * Dx F xmin xmax N))%cr.
  Proof.
    intros H0 H1 H2. unfold Dk, Dx.
    replace (ofZ N * ((xmax - xmin) / ofZ (N - 1)))%cr with (xmax - xmin + (xmax - xmin) / ofZ (N - 1))%cr; [reflexivity|].
    replace N with (N - 1 + 1) at 2 by ring. rewrite (ofZ_add F (N - 1) 1), ofZ_1. field. exact H1.
  Qed.

  Lemma spectrum_even (twopi dt : F) N i : 0 <= i < N -> Z.rem N 2 = 0 ->
    exists k, least_rep N i k /\ fft_bin N i k /\ (spectrum_freq F twopi dt N i = ofZ k * (twopi / (dt * ofZ N)))%cr.
  Proof.
    intros Hi Hev. assert (E : N = 2 * Z.quot N 2) by (pose proof (Z.quot_rem' N 2); lia).
    unfold spectrum_freq. assert (LR : forall k, fft_bin N i k -> least_rep N i k).
    { intros k [A B]. split; [exact A|]. intros k' A'. pose proof (same_rem N k k' ltac:(lia) ltac:(congruence)). lia. }
    destruct (i <? Z.quot N 2) eqn:E2.
    - apply Z.ltb_lt in E2. exists i. assert (fft_bin N i i) by (apply bin_low; lia). auto.
    - apply Z.ltb_ge in E2. exists (i - N). assert (fft_bin N i (i - N)) by (apply bin_high; lia).
      replace (- (N - i)) with (i - N) by lia. auto.
  Qed.
  Lemma spectrum_odd (twopi dt : F) N i : 0 <= i < N -> Z.rem N 2 <> 0 -> 2 * i + 1 <> N ->
    exists k, least_rep N i k /\ (spectrum_freq F twopi dt N i = ofZ k * (twopi / (dt * ofZ N)))%cr.
  Proof.
    intros Hi Hodd Hmid. assert (B : Z.rem N 2 = 1) by (pose proof (Z.rem_bound_pos N 2); lia).
    assert (E : N = 2 * Z.quot N 2 + 1) by (pose proof (Z.quot_rem' N 2); lia).
    unfold spectrum_freq. assert (LR : forall k, fft_bin N i k -> least_rep N i k).
    { intros k [A B']. split; [exact A|]. intros k' A'. pose proof (same_rem N k k' ltac:(lia) ltac:(congruence)). lia. }
    destruct (i <? Z.quot N 2) eqn:E2.
    - apply Z.ltb_lt in E2. exists i. split; [|reflexivity]. apply LR, bin_low; lia.
    - apply Z.ltb_ge in E2. exists (i - N). replace (- (N - i)) with (i - N) by lia. split; [|reflexivity].
      apply LR, bin_high; lia.
  Qed.
  Lemma spectrum_mid (twopi dt : F) N i : 0 <= i < N -> 2 * i + 1 = N ->
    least_rep N i i /\ (spectrum_freq F twopi dt N i = ofZ (i - N) * (twopi / (dt * ofZ N)))%cr /\ ~ least_rep N i (i - N).
  Proof.
    intros Hi Hm. split; [|split].
    - split; [apply Z.mod_small; lia|]. intros k' A'.
      pose proof (same_rem N i k' ltac:(lia) ltac:(rewrite A'; apply Z.mod_small; lia)). lia.
    - unfold spectrum_freq. assert (Q : Z.quot N 2 = i).
      { rewrite <- Hm. symmetry. apply Z.quot_unique with 1; lia. }
      rewrite Q, Z.ltb_irrefl. replace (- (N - i)) with (i - N) by lia. reflexivity.
    - intros [_ H]. specialize (H i). rewrite Z.mod_small in H by lia. specialize (H eq_refl). lia.
  Qed.
End FreqProofs.
