From Coq Require Import List NArith ZArith Lia Bool Ring.
From Verif Require Import Base Arrays Algebra Complex Model.Simd Spec.Simd.
Import ListNotations.
Open Scope Z_scope.

Section P.
  Variable R : cring.
  Variable cexp : Cx R -> Cx R.
  Add Ring RR : (cr_th R).

  Ltac unf := unfold d_add, d_sub, d_mul, d_muld, d_mulI, r_mulI, d_conj, d_assign, d_real, d_imag, sse_add, sse_sub, sse_mul,
    sse_muld, sse_multimag, sse_conj, sse_imag, sse_real, x_mul, x_add, x_sub, x_neghigh, x_shuffle, x_hadd, x_unpacklo, x_unpackhi,
    x_load1 in *.

  Lemma scalar_documented k a b c r d z : scalar_val R cexp k a b c r d z = documented R cexp k a b c r d z.
  Proof.
    destruct a as [ar ai], b as [br bi], c as [cr' ci], z as [zr zi].
    destruct k; cbn [scalar_val documented]; try match goal with |- cexp _ = _ => apply f_equal end; unf; apply cx_eq; cbn; ring.
  Qed.

  Lemma sse_scalar s k a b c r d z : k <> Im -> k <> ImCC -> sse_val R cexp s k a b c r d z = scalar_val R cexp k a b c r d z.
  Proof.
    intros N1 N2. destruct a as [ar ai], b as [br bi], c as [cr' ci], z as [zr zi].
    destruct k; try congruence; cbn [scalar_val sse_val]; try match goal with |- cexp _ = _ => apply f_equal end; unf; destruct s; apply cx_eq; cbn; ring.
  Qed.

  (** unused operands *)
  Definition indep (val : codelet -> dc R -> dc R -> dc R -> R -> R -> dc R -> dc R) : Prop :=
    forall k a b c r a' b' c' r' d z,
      (uses k A = true -> a = a') -> (uses k B = true -> b = b') -> (uses k C = true -> c = c') -> (uses_real k = true -> r = r') ->
      val k a b c r d z = val k a' b' c' r' d z.
  Lemma documented_indep : indep (documented R cexp).
  Proof.
    intros k a b c r a' b' c' r' d z HA HB HC HR.
    destruct k; cbn in *; try specialize (HA eq_refl); try specialize (HB eq_refl); try specialize (HC eq_refl);
      try specialize (HR eq_refl); subst; reflexivity.
  Qed.

  Lemma target_ok k : target k = destination k.
  Proof. destruct k; reflexivity. Qed.
  Lemma loop_ok val k c size m : indep val -> 0 <= size -> long R k m c size ->
    exists m', loop R val k c size m = Ok m' /\
      (forall p, zlen (m' p) = zlen (m p)) /\
      (forall p i, p <> ptr R c (destination k) \/ ~ (0 <= i < size) -> rd (m' p) i = rd (m p) i) /\
      (forall i a b cc r, 0 <= i < size ->
         (uses k A = true -> rd (m (ptr R c A)) i = Ok a) -> (uses k B = true -> rd (m (ptr R c B)) i = Ok b) ->
         (uses k C = true -> rd (m (ptr R c C)) i = Ok cc) -> (uses_real k = true -> rd (reals R c) i = Ok r) ->
         rd (m' (ptr R c (destination k))) i = Ok (val k a b cc r (d_arg R c) (z_arg R c))).
  Proof.
    intros HI H0 [HL HR]. rewrite <- (target_ok k) in HL |- *. set (t := ptr R c (target k)). unfold loop.
    destruct (foldM_upto (fun m0 i =>
      let* a := load R k m0 c A i in let* b := load R k m0 c B i in let* cc := load R k m0 c C i in let* r := load_real R k c i in
      store R m0 (ptr R c (target k)) i (val k a b cc r (d_arg R c) (z_arg R c)))
      (fun n m0 => (forall p, zlen (m0 p) = zlen (m p)) /\
        (forall p i, p <> t \/ ~ (0 <= i < n) -> rd (m0 p) i = rd (m p) i) /\
        (forall i a b cc r, 0 <= i < n ->
         (uses k A = true -> rd (m (ptr R c A)) i = Ok a) -> (uses k B = true -> rd (m (ptr R c B)) i = Ok b) ->
         (uses k C = true -> rd (m (ptr R c C)) i = Ok cc) -> (uses_real k = true -> rd (reals R c) i = Ok r) ->
         rd (m0 t) i = Ok (val k a b cc r (d_arg R c) (z_arg R c)))) 0 size m H0) as (m' & E & P).
    - split; [reflexivity|]. split; [reflexivity|]. lia.
    - intros n m0 Hn (PL & PK & PV).
      assert (LD : forall x, exists a, load R k m0 c x n = Ok a /\ (uses k x = true -> rd (m (ptr R c x)) n = Ok a)).
      { intros x. unfold load, elem. destruct (uses k x) eqn:U; [|eexists; split; [reflexivity|discriminate]].
        assert (LX : size <= zlen (m (ptr R c x))) by (apply HL; left; exact U).
        rewrite PK by lia. destruct (proj1 (rd_ok (m (ptr R c x)) n)) as [a Ea]; [lia|]. exists a. rewrite Ea. auto. }
      destruct (LD A) as (a & Ea & Ha), (LD B) as (b & Eb & Hb), (LD C) as (cc & Ec & Hc).
      assert (LRl : exists r, load_real R k c n = Ok r /\ (uses_real k = true -> rd (reals R c) n = Ok r)).
      { unfold load_real. destruct (uses_real k); [|eexists; split; [reflexivity|discriminate]].
        specialize (HR eq_refl). destruct (proj1 (rd_ok (reals R c) n)) as [r Er]; [lia|]. exists r. rewrite Er. auto. }
      destruct LRl as (r & Er & Hr). rewrite Ea, Eb, Ec, Er. cbn [bind]. unfold store. fold t.
      assert (LT : size <= zlen (m t)) by (apply HL; right; reflexivity).
      rewrite wr_ok by (rewrite PL; lia). cbn [bind]. eexists. split; [reflexivity|]. split; [|split].
      + intros p. destruct (Z.eqb_spec p t) as [->|N]; [rewrite zlen_upd|]; apply PL.
      + intros p i Hi. destruct (Z.eqb_spec p t) as [->|N].
        * rewrite rd_upd by (rewrite PL; lia). destruct Hi as [Hi|Hi]; [congruence|]. destruct (Z.eqb_spec i n); [lia|]. apply PK. lia.
        * apply PK. left. exact N.
      + intros i a' b' cc' r' Hi HA' HB' HC' HR'. rewrite Z.eqb_refl. rewrite rd_upd by (rewrite PL; lia). destruct (Z.eqb_spec i n) as [->|N].
        * f_equal. apply HI; intros U.
          -- rewrite HA' in Ha by exact U. specialize (Ha U). congruence.
          -- rewrite HB' in Hb by exact U. specialize (Hb U). congruence.
          -- rewrite HC' in Hc by exact U. specialize (Hc U). congruence.
          -- rewrite HR' in Hr by exact U. specialize (Hr U). congruence.
        * apply PV; [lia|assumption..].
    - exists m'. split; [exact E|]. exact P.
  Qed.

  Lemma loop_ext v1 v2 k c size m : (forall a b cc r d z, v1 k a b cc r d z = v2 k a b cc r d z) -> loop R v1 k c size m = loop R v2 k c size m.
  Proof.
    intros H. unfold loop. apply foldM_ext. intros i m0 _. destruct (load R k m0 c A i); cbn; [|reflexivity..].
    destruct (load R k m0 c B i); cbn; [|reflexivity..]. destruct (load R k m0 c C i); cbn; [|reflexivity..].
    destruct (load_real R k c i); cbn; [|reflexivity..]. rewrite H. reflexivity.
  Qed.

  Lemma scalar_loop_ok k c size m : 0 <= size -> long R k m c size ->
    same_as_documented R cexp (scalar_loop R cexp k c size m) k c size m.
  Proof.
    intros H0 HL. unfold same_as_documented, scalar_loop. rewrite (loop_ext _ (documented R cexp)) by (intros; apply scalar_documented).
    apply loop_ok; [exact documented_indep|exact H0|exact HL].
  Qed.
  Lemma sse_loop_ok s k c size m : k <> Im -> k <> ImCC -> 0 <= size -> long R k m c size ->
    sse_loop R cexp s k c size m = scalar_loop R cexp k c size m /\
    same_as_documented R cexp (sse_loop R cexp s k c size m) k c size m.
  Proof.
    intros N1 N2 H0 HL. assert (E : sse_loop R cexp s k c size m = scalar_loop R cexp k c size m).
    { apply loop_ext. intros. apply sse_scalar; assumption. }
    split; [exact E|]. rewrite E. apply scalar_loop_ok; assumption.
  Qed.

  (** primitives *)
  Lemma sse_primitives s (a b : dc R) (r : R) :
    sse_mul R s a b = d_mul R a b /\ sse_add R a b = d_add R a b /\ sse_sub R a b = d_sub R a b /\ sse_muld R a r = d_muld R a r /\
    sse_conj R a = d_conj R a /\ sse_multimag R a r = d_muld R (d_mulI R a) r /\ sse_real R a = d_assign R (d_real R a) /\
    sse_reals R a = d_real R a.
  Proof.
    destruct a as [ar ai], b as [br bi]. repeat split; unf; try destruct s; apply cx_eq; cbn; ring.
  Qed.
  Lemma avx_primitives (a b : m256 R) (r : R) :
    avx_mul R a b = (d_mul R (fst a) (fst b), d_mul R (snd a) (snd b)) /\
    avx_add R a b = (d_add R (fst a) (fst b), d_add R (snd a) (snd b)) /\
    avx_sub R a b = (d_sub R (fst a) (fst b), d_sub R (snd a) (snd b)) /\
    avx_muld R a r = (d_muld R (fst a) r, d_muld R (snd a) r) /\
    avx_conj R a = (d_conj R (fst a), d_conj R (snd a)) /\
    avx_real R a = (d_assign R (d_real R (fst a)), d_assign R (d_real R (snd a))) /\
    avx_multimag R a r = (d_muld R (d_mulI R (fst a)) r, (cmul (fst (snd a)) r, cmul (fst (snd a)) r)).
  Proof.
    destruct a as [[a0 a1] [a2 a3]], b as [[b0 b1] [b2 b3]].
    repeat split; unfold avx_mul, avx_add, avx_sub, avx_muld, avx_conj, avx_real, avx_multimag, y_lift2, y_lift, y_permute, y_shuffle, y_broadcast;
      unf; cbn; repeat first [apply f_equal2 | ring].
  Qed.

  (** AVX loops *)
  Lemma avx_ub base k c size m : 1 <= size -> zlen (m (ptr R c (destination k))) = size -> long R k m c size ->
    (forall a b cc r d z, avx_val R k a b cc r d z <> None) -> avx_loop R base k c size m = UB.
  Proof.
    intros Hs HT [HL HR] HV. rewrite <- (target_ok k) in HT, HL. set (t := ptr R c (target k)) in *.
    assert (LD : forall (m0 : mem R) n x, 0 <= n < size -> (forall p, zlen (m0 p) = zlen (m p)) -> exists a, load R k m0 c x n = Ok a).
    { intros m0 n x Hn L. unfold load, elem. destruct (uses k x) eqn:U; [|eauto].
      assert (LX : size <= zlen (m (ptr R c x))) by (apply HL; left; exact U). apply rd_ok. rewrite L. lia. }
    assert (LRl : forall n, 0 <= n < size -> exists r, load_real R k c n = Ok r).
    { intros n Hn. unfold load_real. destruct (uses_real k); [|eauto]. specialize (HR eq_refl). apply rd_ok. lia. }
    unfold avx_loop. rewrite upto_cons by lia. cbn [foldM].
    destruct (LD m 0 A) as [a ->]; [lia|reflexivity|]. destruct (LD m 0 B) as [b ->]; [lia|reflexivity|].
    destruct (LD m 0 C) as [cc ->]; [lia|reflexivity|]. destruct (LRl 0) as [r ->]; [lia|]. cbn [bind].
    destruct (avx_val R k a b cc r (d_arg R c) (z_arg R c)) as [v|] eqn:EV; [|exfalso; exact (HV _ _ _ _ _ _ EV)].
    unfold avx_store. fold t. destruct (Z.even (base t + 0)) eqn:EE; [|reflexivity].
    unfold store. rewrite wr_ok by lia. cbn [bind]. rewrite Z.eqb_refl.
    destruct (Z.eq_dec size 1) as [E1|N1].
    - unfold wr. fold (zlen (upd (m t) (Z.to_nat 0) (fst v))). rewrite zlen_upd, HT, E1. reflexivity.
    - rewrite wr_ok by (rewrite zlen_upd; lia). cbn [bind]. rewrite upto_cons by lia. cbn [foldM]. set (m1 := fun q : Z => if q =? t then _ else _).
      assert (L1 : forall p, zlen (m1 p) = zlen (m p)).
      { intros p. unfold m1. destruct (Z.eqb_spec p t) as [->|N]; [rewrite !zlen_upd|]; reflexivity. }
      destruct (LD m1 1 A) as [a1 Ea]; [lia|exact L1|]. destruct (LD m1 1 B) as [b1 Eb]; [lia|exact L1|].
      destruct (LD m1 1 C) as [cc1 Ec]; [lia|exact L1|]. destruct (LRl 1) as [r1 Er]; [lia|].
      change (0 + 1) with 1. rewrite Ea, Eb, Ec, Er. cbn [bind].
      destruct (avx_val R k a1 b1 cc1 r1 (d_arg R c) (z_arg R c)) as [v1|] eqn:EV1; [|exfalso; exact (HV _ _ _ _ _ _ EV1)].
      rewrite Z.add_0_r in EE. replace (Z.even (base t + 1)) with false; [reflexivity|].
      rewrite Z.even_add, EE. reflexivity.
  Qed.
  Lemma avx_broken base k c size m m' : 1 <= size -> zlen (m (ptr R c (destination k))) = size -> long R k m c size ->
    avx_loop R base k c size m <> Ok m'.
  Proof.
    intros Hs HT HL E. destruct (avx_val R k (c0, c0) (c0, c0) (c0, c0) c0 c0 (c0, c0)) eqn:EV.
    - rewrite avx_ub in E; [discriminate|assumption..|]. intros a b cc r d z. destruct k; cbn in EV |- *; congruence.
    - unfold avx_loop in E. rewrite upto_cons in E by lia. cbn [foldM] in E. destruct (load R k m c A 0); try discriminate. cbn [bind] in E.
      destruct (load R k m c B 0); try discriminate. cbn [bind] in E. destruct (load R k m c C 0); try discriminate. cbn [bind] in E.
      destruct (load_real R k c 0); try discriminate. cbn [bind] in E. destruct k; cbn in EV, E; discriminate.
  Qed.
End P.
