From Coq Require Import List NArith ZArith Lia Bool Ring.
From Verif Require Import Base Arrays Algebra Model.Laser Spec.Laser.
Import ListNotations.
Open Scope Z_scope.

Section P.
  Variable R : cring.
  Add Ring RR : (cr_th R).

  Lemma fold_sq (data : list R) : fold_left (fun d x => cadd d (cmul x x)) data c0 = lsum (fun x => cmul x x) data.
  Proof. rewrite (lsum_fold R (fun x => cmul x x)). ring. Qed.

  Lemma at_get l t : clocked R l -> l_get R (l_at R l t) = let* x := rd (l_data R l) t in Ok (cmul x (l_scale R l)).
  Proof. unfold clocked, l_at, l_get. destruct (l_clock R l) as [c|]; [reflexivity|congruence]. Qed.

  Lemma reported_all l vals : clocked R l -> zlen vals = zlen (l_data R l) ->
    (forall t x, rd vals t = Ok x -> reported R l t x) -> vals = map (fun x => cmul x (l_scale R l)) (l_data R l).
  Proof.
    intros HC HL H. apply rd_ext; [rewrite zlen_map; exact HL|]. intros i Hi.
    destruct (proj1 (rd_ok vals i) Hi) as [x Ex]. rewrite Ex, rd_map. specialize (H _ _ Ex). unfold reported in H.
    rewrite at_get in H by exact HC. symmetry. exact H.
  Qed.

  Lemma energy_exact kfac l vals : clocked R l -> zlen vals = zlen (l_data R l) ->
    (forall t x, rd vals t = Ok x -> reported R l t x) ->
    cmul (l_scale R l) (l_energy R kfac l) = cmul (cmul kfac (l_dt R l)) (lsum (fun x => cmul x x) vals).
  Proof.
    intros HC HL H. rewrite (reported_all l vals HC HL H), lsum_map. unfold l_energy. rewrite fold_sq.
    set (s := l_scale R l).
    assert (E : lsum (fun a : R => cmul (cmul a s) (cmul a s)) (l_data R l) = cmul (cmul s s) (lsum (fun x : R => cmul x x) (l_data R l))).
    { rewrite <- lsum_mul. apply lsum_ext. intros. ring. }
    rewrite E. ring.
  Qed.
  Lemma energy_unscaled kfac l vals : clocked R l -> zlen vals = zlen (l_data R l) ->
    (forall t x, rd vals t = Ok x -> reported R l t x) -> l_scale R l = c1 ->
    l_energy R kfac l = cmul (cmul kfac (l_dt R l)) (lsum (fun x => cmul x x) vals).
  Proof. intros HC HL H E. pose proof (energy_exact kfac l vals HC HL H) as P. rewrite E in P. rewrite <- P. ring. Qed.

  Lemma copy_same dest src t : l_scale R dest = l_scale R src -> l_get R (l_at R (l_assign R dest src) t) = l_get R (l_at R src t).
  Proof. unfold l_assign, l_at, l_get. intros E. destruct (l_clock R src) eqn:EC; cbn; rewrite ?E, ?EC; reflexivity. Qed.
  Lemma copy_scaled dest src t : clocked R src ->
    l_get R (l_at R (l_assign R dest src) t) = let* x := rd (l_data R src) t in Ok (cmul x (l_scale R dest)).
  Proof. intros H. rewrite at_get; [reflexivity|]. exact H. Qed.

  Lemma vectorpot_exact l c : l_clock R l = Some c -> c_step R c <= zlen (l_data R l) ->
    l_vectorpot R l = Ok (cmul (lsum (fun x => x) (firstn (Z.to_nat (c_step R c)) (l_data R l))) (l_dt R l)).
  Proof.
    intros E H. unfold l_vectorpot. rewrite E.
    assert (F : forall n s, Z.of_nat n <= zlen (l_data R l) ->
      foldM (fun s t => let* x := rd (l_data R l) t in Ok (cadd s x)) (upto 0 (Z.of_nat n)) s =
      Ok (cadd s (lsum (fun x => x) (firstn n (l_data R l))))).
    { induction n as [|n IH]; intros s Hn.
      - cbn. f_equal. ring.
      - rewrite Nat2Z.inj_succ, <- Z.add_1_r, upto_snoc by lia. rewrite foldM_app, IH by lia. cbn [bind foldM].
        destruct (proj1 (rd_ok (l_data R l) (Z.of_nat n))) as [x Ex]; [lia|]. rewrite Ex. cbn [bind]. f_equal.
        unfold rd in Ex. rewrite (proj2 (Z.leb_le 0 (Z.of_nat n))), Nat2Z.id in Ex by lia.
        destruct (nth_error (l_data R l) n) as [y|] eqn:En; [|discriminate]. injection Ex as ->.
        assert (FS : firstn (S n) (l_data R l) = firstn n (l_data R l) ++ [x]).
        { clear -En. revert n En. induction (l_data R l) as [|a t IH]; intros [|n] En; try discriminate; cbn in *.
          - congruence.
          - f_equal. apply IH. exact En. }
        rewrite FS, lsum_app. cbn. ring. }
    destruct (Z_le_gt_dec 0 (c_step R c)) as [L|L].
    - rewrite <- (Z2Nat.id (c_step R c)) at 1 by lia. rewrite F by (rewrite Z2Nat.id; lia). cbn. do 2 f_equal. ring.
    - rewrite upto_nil by lia. cbn. replace (Z.to_nat (c_step R c)) with 0%nat by lia. reflexivity.
  Qed.

  Lemma set_get l v : clocked R l -> forall l', l_set R l v = Ok l' -> l_get R l' = Ok (cmul v (l_scale R l)).
  Proof.
    unfold clocked, l_set, l_get. destruct (l_clock R l) as [c|] eqn:EC; [|congruence]. intros _ l' E.
    destruct (wr (l_data R l) (c_step R c) v) as [w| |] eqn:W; try discriminate. injection E as <-. cbn.
    apply wr_inv in W. destruct W as [B ->]. rewrite rd_upd by exact B. rewrite Z.eqb_refl. reflexivity.
  Qed.
End P.

(** the power spectrum *)
Lemma power_spectrum (R : cring) X (spectrum : list R -> list X) (cabs : X -> R) l c :
  (forall d, zlen (spectrum d) = c_steps R c / 2 + 1) -> l_clock R l = Some c -> 3 <= c_steps R c <= zlen (l_data R l) ->
  l_power R X spectrum cabs l = UB.
Proof.
  intros HS EC HB. unfold l_power. rewrite EC. set (data := firstn _ _).
  assert (LD : zlen data = c_steps R c).
  { unfold data, zlen. rewrite firstn_length. unfold zlen in HB. lia. }
  rewrite LD. set (n := c_steps R c) in *. set (h := n / 2 + 1).
  assert (Hh : 0 <= h < n). { unfold h. split; [pose proof (Z.div_pos n 2); lia|]. pose proof (Z.div_lt n 2). lia. }
  rewrite (upto_app 0 h n) by lia. rewrite foldM_app.
  destruct (foldM_upto (fun p i => let* x := rd (spectrum data) i in wr p i (cabs x)) (fun _ p => zlen p = h) 0 h
    (repeat c0 (Z.to_nat h))) as (p & Ep & Lp).
  - lia.
  - unfold zlen. rewrite repeat_length. lia.
  - intros i p Hi Lp. destruct (proj1 (rd_ok (spectrum data) i)) as [x Ex]; [rewrite HS; fold h; lia|]. rewrite Ex. cbn [bind].
    rewrite wr_ok by lia. eexists. split; [reflexivity|]. rewrite zlen_upd. exact Lp.
  - rewrite Ep. cbn [bind]. rewrite upto_cons by lia. cbn [foldM]. rewrite rd_ub by (rewrite HS; fold h; lia). reflexivity.
Qed.
Lemma power_small (R : cring) X (spectrum : list R -> list X) (cabs : X -> R) l c :
  (forall d, zlen (spectrum d) = c_steps R c / 2 + 1) -> l_clock R l = Some c -> 0 <= c_steps R c <= 2 -> c_steps R c <= zlen (l_data R l) ->
  exists l' p, l_power R X spectrum cabs l = Ok (l', p) /\ zlen p = c_steps R c / 2 + 1.
Proof.
  intros HS EC HB HL. unfold l_power. rewrite EC. set (data := firstn _ _).
  assert (LD : zlen data = c_steps R c).
  { unfold data, zlen. rewrite firstn_length. unfold zlen in HL. lia. }
  rewrite LD. set (n := c_steps R c) in *. set (h := n / 2 + 1) in *.
  assert (Hh : n <= h). { unfold h. assert (n = 0 \/ n = 1 \/ n = 2) as [->|[->| ->]] by lia; cbn; lia. }
  destruct (foldM_upto (fun p i => let* x := rd (spectrum data) i in wr p i (cabs x)) (fun _ p => zlen p = h) 0 n
    (repeat c0 (Z.to_nat h))) as (p & Ep & Lp).
  - lia.
  - unfold zlen. rewrite repeat_length. lia.
  - intros i p Hi Lp. destruct (proj1 (rd_ok (spectrum data) i)) as [x Ex]; [rewrite HS; lia|]. rewrite Ex. cbn [bind].
    rewrite wr_ok by lia. eexists. split; [reflexivity|]. rewrite zlen_upd. exact Lp.
  - rewrite Ep. cbn [bind]. eauto.
Qed.

Lemma set_clock_spec (R : cring) eqb (l : laser R) c : (forall x y : R, eqb x y = true <-> x = y) ->
  (forall l', l_set_clock R eqb l c = Ok l' <-> c_dt R c = l_dt R l /\ c_steps R c <= zlen (l_data R l) /\ l' = mkLaser R (l_data R l) (l_dt R l) (l_scale R l) (Some c)) /\
  (l_set_clock R eqb l c = Throw <-> ~ (c_dt R c = l_dt R l /\ c_steps R c <= zlen (l_data R l))) /\
  (forall l' t, l_set_clock R eqb l c = Ok l' -> 0 <= t < c_steps R c -> exists x, l_get R (l_at R l' t) = Ok x).
Proof.
  intros Q. assert (D : (c_dt R c = l_dt R l /\ c_steps R c <= zlen (l_data R l) /\ l_set_clock R eqb l c = Ok (mkLaser R (l_data R l) (l_dt R l) (l_scale R l) (Some c))) \/
    (~ (c_dt R c = l_dt R l /\ c_steps R c <= zlen (l_data R l)) /\ l_set_clock R eqb l c = Throw)).
  { unfold l_set_clock. destruct (eqb (c_dt R c) (l_dt R l)) eqn:E; cbn [negb orb].
    - apply Q in E. destruct (Z.ltb_spec (zlen (l_data R l)) (c_steps R c)); [right; split; [lia|reflexivity]|left; auto].
    - right. split; [|reflexivity]. intros [H _]. apply Q in H. congruence. }
  split; [|split].
  - intros l'. destruct D as [(A & B & ->)|(N & ->)]; split.
    + intros [= <-]. auto.
    + intros (_ & _ & ->). reflexivity.
    + discriminate.
    + tauto.
  - destruct D as [(A & B & ->)|(N & ->)]; split; try discriminate; tauto.
  - intros l' t E Ht. destruct D as [(A & B & E2)|(N & E2)]; rewrite E2 in E; [|discriminate]. injection E as <-. unfold l_at, l_get. cbn.
    rewrite (rd_nth _ t c0) by lia. eexists. reflexivity.
Qed.
