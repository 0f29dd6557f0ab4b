(** Proofs about the Runge-Kutta and Chebyshev propagators. *)
From Coq Require Import List ZArith Lia Bool Ring Field.
From Verif Require Import Base Arrays Algebra Model.Operators Spec.Operators Proofs.OMultistate Model.Stepper Spec.Stepper.
Import ListNotations.
Open Scope Z_scope.

Section S.
  Variable F : fld.
  Add Field FF : (f_th F).
  Variable M : cmodule F.
  Notation "a *: x" := (mscale a x) (at level 40, left associativity).
  Infix "+:" := madd (at level 50, left associativity).
  Notation madd_0r := (madd_0r F M).

  Lemma madd_cancel (x y z : M) : x +: y = x +: z -> y = z.
  Proof.
    intros H. rewrite <- (madd_0 F M y), <- (madd_0 F M z), <- (madd_opp F M x). rewrite (madd_comm F M x (mopp x)). rewrite <- !madd_assoc. rewrite H. reflexivity.
  Qed.
  Lemma mscale_0 (x : M) : c0 *: x = m0.
  Proof.
    apply (madd_cancel (c0 *: x)). rewrite <- mscale_add_l. rewrite (madd_0r (c0 *: x)). f_equal. ring.
  Qed.
  Lemma mscale_m0 a : a *: (m0 : M) = m0.
  Proof. apply (madd_cancel (a *: m0)). rewrite <- mscale_add_r, !madd_0r. reflexivity. Qed.
  Lemma mopp_scale (x : M) : mopp x = copp c1 *: x.
  Proof.
    apply (madd_cancel x). rewrite madd_opp. rewrite <- (mscale_1 F M x) at 1. rewrite <- mscale_add_l. symmetry. rewrite <- (mscale_0 x). f_equal. ring.
  Qed.

  (** polynomials of a linear operator *)
  Section Poly.
    Variable h : M -> M.
    Hypothesis hl : linear F M h.
    Lemma h_0 : h m0 = m0.
    Proof. rewrite <- (mscale_0 m0) at 1. rewrite (proj2 hl). apply mscale_0. Qed.
    Fixpoint poly (l : list F) (x : M) : M := match l with [] => m0 | a :: t => a *: x +: h (poly t x) end.
    Fixpoint padd (a b : list F) : list F := match a, b with [], _ => b | _, [] => a | x :: a, y :: b => cadd x y :: padd a b end.
    Lemma poly_add a b x : poly a x +: poly b x = poly (padd a b) x.
    Proof.
      revert b. induction a as [|p a IH]; intros [|q b]; cbn [poly padd]; [apply madd_0|apply madd_0|apply madd_0r|].
      rewrite <- IH, (proj1 hl), mscale_add_l. rewrite !madd_assoc. f_equal. rewrite <- !madd_assoc. f_equal. apply madd_comm.
    Qed.
    Lemma poly_scale c a x : c *: poly a x = poly (map (cmul c) a) x.
    Proof. induction a as [|p a IH]; cbn [poly map]; [apply mscale_m0|]. rewrite mscale_add_r, <- mscale_mul, <- IH, (proj2 hl). reflexivity. Qed.
    Lemma poly_h a x : h (poly a x) = poly (c0 :: a) x.
    Proof. cbn [poly]. rewrite mscale_0, madd_0. reflexivity. Qed.
    Lemma poly_1 x : x = poly [c1] x.
    Proof. cbn [poly]. rewrite h_0, madd_0r, mscale_1. reflexivity. Qed.
    Lemma poly_0 x : m0 = poly [] x. Proof. reflexivity. Qed.
    Lemma poly_iter k a x : Nat.iter k h (poly a x) = poly (repeat c0 k ++ a) x.
    Proof. induction k as [|k IH]; [reflexivity|]. cbn [Nat.iter nat_rect]. change (h (Nat.iter k h (poly a x)) = poly (repeat c0 (S k) ++ a) x). rewrite IH, poly_h. reflexivity. Qed.
  End Poly.

  Variable junk : nat -> M.
  Lemma rk4_ok (H : acts F M) h c dt n psi : implements F M H h -> linear F M h -> dt <> c0 -> (ofZ 2 : F) <> c0 -> (ofZ 3 : F) <> c0 ->
    exists n', rk4_ip F M junk H c dt n psi = Ok (taylor F M h c 4 psi, n').
  Proof.
    intros (Hc & Hi & _) L Dt T2 T3.
    assert (O2 : (ofZ 2 : F) = cadd c1 c1) by (change 2 with (1 + 1); rewrite ofZ_add, !ofZ_1; reflexivity).
    assert (O3 : (ofZ 3 : F) = cadd c1 (cadd c1 c1)) by (change 3 with (1 + (1 + 1)); rewrite !ofZ_add, !ofZ_1; reflexivity).
    assert (O6 : (ofZ 6 : F) = cmul (cadd c1 c1) (cadd c1 (cadd c1 c1))) by (change 6 with (2 * 3); rewrite ofZ_mul, O2, O3; reflexivity).
    assert (O24 : (ofZ 24 : F) = cmul (cadd c1 c1) (cmul (cadd c1 c1) (cmul (cadd c1 c1) (cadd c1 (cadd c1 c1))))) by (change 24 with (2 * (2 * (2 * 3))); rewrite !ofZ_mul, O2, O3; reflexivity).
    rewrite O2 in T2. rewrite O3 in T3.
    unfold rk4_ip. destruct (Hc (5 + n)%nat (junk (1 + n)%nat) psi) as [n1 ->]. cbn [bind fst snd].
    match goal with |- context [ip _ _ _ n1 ?b] => destruct (Hi n1 b) as [n2 ->] end. cbn [bind fst snd].
    match goal with |- context [ip _ _ _ n2 ?b] => destruct (Hi n2 b) as [n3 ->] end. cbn [bind fst snd].
    match goal with |- context [ip _ _ _ n3 ?b] => destruct (Hi n3 b) as [n4 ->] end. cbn [bind fst snd].
    exists n4. f_equal. f_equal. rewrite (poly_1 h L psi).
    unfold taylor. cbn [seq map msum]. rewrite !poly_iter. repeat first [rewrite poly_h|rewrite (poly_scale h L)|rewrite (poly_add h L)].
    rewrite (poly_0 h psi). rewrite !(poly_add h L). cbn [map padd repeat app fact pow]. change (Z.of_nat 4 * (Z.of_nat 3 * (Z.of_nat 2 * (Z.of_nat 1 * 1)))) with 24.
    change (Z.of_nat 3 * (Z.of_nat 2 * (Z.of_nat 1 * 1))) with 6. change (Z.of_nat 2 * (Z.of_nat 1 * 1)) with 2. change (Z.of_nat 1 * 1) with 1. rewrite ofZ_1, O2, O6, O24.
    assert (N1 : (c1 : F) <> c0) by (destruct (f_th F); assumption).
    assert (CE : forall (x y : F) l k, x = y -> l = k -> x :: l = y :: k) by (intros; subst; reflexivity).
    assert (NZ : forall x y : F, x <> c0 -> y <> c0 -> cmul x y <> c0).
    { intros x y Hx Hy E. apply Hy. destruct (f_th F) as [_ _ _ IV]. transitivity (cmul (cmul (finv x) x) y); [rewrite (IV x Hx); ring|]. transitivity (cmul (finv x) (cmul x y)); [ring|rewrite E; ring]. }
    assert (T6 := NZ _ _ T2 T3). assert (T24 := NZ _ _ T2 (NZ _ _ T2 (NZ _ _ T2 T3))).
    f_equal. repeat (apply CE; [field; repeat split; first [exact N1|exact Dt|exact T2|exact T3|exact T6|exact T24]|]). reflexivity.
  Qed.
  Lemma rk4_copy_code (H : acts F M) c dt n dest src r n' : rk4_ip F M junk H c dt n dest = Ok (r, n') -> rk4_cp F M junk H c dt n dest src = Ok (dest, r, n').
  Proof. intros E. unfold rk4_cp. rewrite E. reflexivity. Qed.

  (** the Chebyshev recursion *)
  Section Cheby.
    Variables (H : acts F M) (h : M -> M) (imag : bool) (ex off scal e : F) (coeff : list F) (stop : Z -> M -> M -> bool) (psi : M).
    Hypothesis Hh : implements F M H h.
    Hypothesis Hs : scal <> c0.
    Definition X (x : M) : M := mscale ex (shifted F M h off scal x).
    Definition s (x : M) : M := if imag then @mopp F M x else x.
    Definition a (k : nat) : F := cmul (nth k coeff c0) e.
    Notation phi := (phi F M X s psi).
    Notation series := (series F M X s a psi).
    Lemma phi_S k : phi (S (S k)) = ofZ 2 *: X (phi (S k)) +: s (phi k).
    Proof. unfold Stepper.phi. cbn [phis]. destruct (phis F M X s psi k) as [x y]. reflexivity. Qed.
    Lemma series_S K : series (S K) = series K +: a K *: phi K.
    Proof. unfold Stepper.series. rewrite seq_S, map_app, msum_app. cbn [map msum Nat.add]. rewrite madd_0r. reflexivity. Qed.
    Lemma off_opp (x : M) : copp off *: x = mopp (off *: x).
    Proof. rewrite mopp_scale, <- mscale_mul. f_equal. ring. Qed.
    (** converged after the term with index i *)
    Definition converged (i : Z) : bool := stop i (series (Z.to_nat i)) (series (Z.to_nat (i + 1))).
    Definition at_term (i : Z) (t : chb F M) : Prop :=
      (b_done F M t = false /\ b_k0 F M t = phi (Z.to_nat (i - 2)) /\ b_k1 F M t = phi (Z.to_nat (i - 1)) /\ b_psi F M t = series (Z.to_nat i) /\ forall j, 2 <= j < i -> converged j = false) \/
      (b_done F M t = true /\ exists K, 2 <= K < i /\ b_psi F M t = series (Z.to_nat (K + 1)) /\ converged K = true /\ forall j, 2 <= j < K -> converged j = false).
    Lemma term_ok i t : 2 <= i < zlen coeff -> at_term i t -> exists t', cheby_term F M junk H imag ex off scal e coeff stop t i = Ok t' /\ at_term (i + 1) t'.
    Proof.
      intros Hi [(D & A0 & A1 & AP & N)|(D & K & KB & AP & C & N)].
      - unfold cheby_term. rewrite D. rewrite (rd_nth coeff i c0) by lia. cbn [bind].
        destruct (proj1 Hh (b_n F M t) (junk (b_n F M t)) (b_k1 F M t)) as [n' ->]. cbn [bind fst snd].
        assert (E2 : (if imag then (ofZ 2 * ex)%cr *: ((1 / scal)%cr *: (h (b_k1 F M t) +: copp off *: b_k1 F M t)) +: mopp (b_k0 F M t)
                      else (ofZ 2 * ex)%cr *: ((1 / scal)%cr *: (h (b_k1 F M t) +: copp off *: b_k1 F M t)) +: b_k0 F M t) = phi (Z.to_nat i)).
        { replace (Z.to_nat i) with (S (S (Z.to_nat (i - 2)))) by lia. rewrite phi_S. replace (S (Z.to_nat (i - 2))) with (Z.to_nat (i - 1)) by lia.
          rewrite <- A0, <- A1, off_opp, mscale_mul. unfold s, X, shifted. replace ((1 / scal)%cr) with (finv scal) by (field; exact Hs). destruct imag; reflexivity. }
        rewrite E2, AP.
        assert (ES : series (Z.to_nat i) +: (nth (Z.to_nat i) coeff 0 * e)%cr *: phi (Z.to_nat i) = series (Z.to_nat (i + 1))).
        { replace (Z.to_nat (i + 1)) with (S (Z.to_nat i)) by lia. rewrite series_S. reflexivity. }
        rewrite ES. change (stop i (series (Z.to_nat i)) (series (Z.to_nat (i + 1)))) with (converged i).
        destruct (converged i) eqn:Cv.
        + eexists. split; [reflexivity|]. right. split; [reflexivity|]. exists i. split; [lia|]. split; [reflexivity|]. split; [exact Cv|exact N].
        + eexists. split; [reflexivity|]. left. cbn [b_done b_k0 b_k1 b_psi]. split; [reflexivity|]. split; [rewrite A1; f_equal; lia|]. split; [f_equal; lia|]. split; [reflexivity|].
          intros j Hj. destruct (Z.eq_dec j i) as [->|]; [exact Cv|apply N; lia].
      - unfold cheby_term. rewrite D. exists t. split; [reflexivity|]. right. split; [exact D|]. exists K. split; [lia|]. split; [exact AP|]. split; [exact C|exact N].
    Qed.
  End Cheby.
  Lemma cheby_ok (H : acts F M) h imag ex off scal e coeff stop order n psi : implements F M H h -> scal <> c0 -> 2 <= order <= zlen coeff ->
    exists K n', 2 <= K <= order /\
      cheby_ip F M junk H imag ex off scal e coeff order stop n psi = Ok (series F M (X h ex off scal) (s imag) (a e coeff) psi (Z.to_nat K), n') /\
      (K = order \/ (3 <= K /\ converged h imag ex off scal e coeff (stop psi) psi (K - 1) = true)) /\ forall j, 2 <= j < K - 1 -> converged h imag ex off scal e coeff (stop psi) psi j = false.
  Proof.
    intros Hh Hs Ho. unfold cheby_ip. destruct (proj1 Hh (4 + n)%nat (junk (1 + n)%nat) psi) as [n1 ->]. cbn [bind fst snd].
    rewrite (rd_nth coeff 0 c0) by lia. rewrite (rd_nth coeff 1 c0) by lia. cbn [bind].
    destruct (foldM_upto (cheby_term F M junk H imag ex off scal e coeff (stop psi)) (at_term h imag ex off scal e coeff (stop psi) psi) 2 order
      (mkChb F M psi ((ex / scal)%cr *: (h psi +: copp off *: psi)) ((nth (Z.to_nat 0) coeff c0 * e)%cr *: psi +: (nth (Z.to_nat 1) coeff c0 * e)%cr *: ((ex / scal)%cr *: (h psi +: copp off *: psi))) n1 false)) as (t & -> & T).
    - lia.
    - left. cbn [b_done b_k0 b_k1 b_psi]. split; [reflexivity|]. split; [reflexivity|].
      assert (E1 : (ex / scal)%cr *: (h psi +: copp off *: psi) = phi F M (X h ex off scal) (s imag) psi 1).
      { change (phi F M (X h ex off scal) (s imag) psi 1) with (X h ex off scal psi). unfold X, shifted. rewrite <- mscale_mul, off_opp. f_equal. field. exact Hs. }
      split; [exact E1|]. split; [|intros j Hj; lia]. rewrite E1. change (Z.to_nat 2) with 2%nat. unfold series. cbn [seq map msum]. rewrite madd_0r. reflexivity.
    - intros i t Hi T. apply term_ok; [exact Hh|exact Hs|lia|exact T].
    - cbn [bind]. destruct T as [(D & A0 & A1 & AP & N)|(D & K & KB & AP & C & N)].
      + exists order, (b_n F M t). split; [lia|]. split; [rewrite AP; reflexivity|]. split; [left; reflexivity|]. intros j Hj. apply N. lia.
      + exists (K + 1), (b_n F M t). split; [lia|]. split; [rewrite AP; reflexivity|]. split; [right; split; [lia|replace (K + 1 - 1) with K by lia; exact C]|]. intros j Hj. apply N. lia.
  Qed.
  (** the recursion in terms of Chebyshev polynomials *)
  Lemma shifted_linear h off scal : linear F M h -> linear F M (shifted F M h off scal).
  Proof.
    intros [A B]. unfold shifted. split.
    - intros x y. rewrite A, <- mscale_add_r. f_equal. rewrite !mopp_scale, !mscale_add_r. rewrite !madd_assoc. f_equal. rewrite <- !madd_assoc. f_equal. apply madd_comm.
    - intros c x. rewrite B. rewrite !mopp_scale, !mscale_add_r, <- !mscale_mul. f_equal; f_equal; ring.
  Qed.
  Lemma phi_cheb h (imag : bool) (ex off scal : F) psi : linear F M h -> cmul ex ex = (if imag then c1 else copp c1) -> forall k,
    phi F M (X h ex off scal) (s imag) psi k = pow F ex k *: cheb F M (shifted F M h off scal) psi k.
  Proof.
    intros L E. set (g := shifted F M h off scal). assert (G : linear F M g) by (apply shifted_linear; exact L).
    assert (Q : forall k, fst (phis F M (X h ex off scal) (s imag) psi k) = pow F ex k *: fst (chebs F M g psi k) /\
                          snd (phis F M (X h ex off scal) (s imag) psi k) = pow F ex (S k) *: snd (chebs F M g psi k)).
    { induction k as [|k [I1 I2]].
      - cbn. split; [symmetry; apply mscale_1|]. unfold X. fold g. f_equal. ring.
      - cbn [phis chebs]. destruct (phis F M (X h ex off scal) (s imag) psi k) as [x y]. destruct (chebs F M g psi k) as [u v]. cbn [fst snd] in *. split; [exact I2|].
        rewrite I1, I2. unfold X. fold g. rewrite (proj2 G), mscale_add_r, <- !mscale_mul. f_equal; [f_equal; cbn [pow]; ring|].
        unfold s. destruct imag; [|]; rewrite ?mopp_scale, <- !mscale_mul; f_equal; cbn [pow].
        + transitivity (cmul (cmul ex ex) (cmul (pow F ex k) (copp c1))); [rewrite E|]; ring.
        + transitivity (cmul (cmul ex ex) (cmul (pow F ex k) (copp c1))); [rewrite E|]; ring. }
    intros k. apply (Q k).
  Qed.

End S.

(** coefficients *)
Section Co.
  Variable F : fld.
  Add Field FF2 : (f_th F).
  Lemma enough_ok fuel (bessel : list F) close order : order <= zlen bessel -> 2 <= zlen bessel -> forall i, 2 <= i -> (i <= order \/ i = 2) -> exists K, enough F fuel bessel close order i = Ok K /\ 2 <= K /\ (K <= order \/ K = 2).
  Proof.
    intros L L2. induction fuel as [|fuel IH]; intros i Hi Hc; cbn [enough]; [exists i; tauto|].
    destruct (i <? order) eqn:B; [|exists i; tauto]. apply Z.ltb_lt in B.
    destruct (proj1 (rd_ok bessel (i - 1))) as [p ->]; [lia|]. destruct (proj1 (rd_ok bessel (i - 2))) as [q ->]; [lia|]. cbn [bind].
    destruct (close p q); [exists i; tauto|]. apply IH; [lia|left; lia].
  Qed.
  Lemma fill_ok (bessel : list F) order : 1 <= order <= zlen bessel -> forall c0' : F, exists l, foldM (fun l i => let* b := rd bessel i in Ok (l ++ [(ofZ 2 * b)%cr])) (upto 1 order) [c0'] = Ok l /\ zlen l = order /\
    nth 0 l c0 = c0' /\ forall i, (1 <= i)%nat -> Z.of_nat i < order -> nth i l c0 = cmul (ofZ 2) (nth i bessel c0).
  Proof.
    intros Ho c. destruct (foldM_upto (fun l i => let* b := rd bessel i in Ok (l ++ [(ofZ 2 * b)%cr]))
      (fun k l => zlen l = k /\ nth 0 l c0 = c /\ forall i, (1 <= i)%nat -> Z.of_nat i < k -> nth i l c0 = cmul (ofZ 2) (nth i bessel c0)) 1 order [c]) as (l & E & P).
    - lia.
    - split; [reflexivity|]. split; [reflexivity|]. intros i H1 H2. lia.
    - intros k l Hk (L & Z0 & P). rewrite (rd_nth bessel k c0) by lia. cbn [bind]. eexists. split; [reflexivity|]. unfold zlen in *. rewrite app_length. cbn [length]. split; [lia|].
      split; [rewrite app_nth1 by lia; exact Z0|]. intros i H1 H2. destruct (Z.eq_dec (Z.of_nat i) k) as [Ei|Ei].
      + rewrite app_nth2 by lia. replace (i - length l)%nat with O by lia. cbn [nth]. replace (Z.to_nat k) with i by lia. reflexivity.
      + rewrite app_nth1 by lia. apply P; lia.
    - exists l. tauto.
  Qed.
  Lemma init_ok want given (bessel : list F) zeroes close small : 0 <= zeroes -> zlen bessel = want -> 3 <= want -> (given = true -> 2 <= want - zeroes) ->
    (exists order l, cheby_init F want given bessel zeroes close small = Ok (order, l) /\ 2 <= order <= want /\ zlen l = order /\
       nth 0 l c0 = nth 0 bessel c0 /\ forall i, (1 <= i)%nat -> Z.of_nat i < order -> nth i l c0 = cmul (ofZ 2) (nth i bessel c0)) \/ cheby_init F want given bessel zeroes close small = Throw.
  Proof.
    intros Hz L W G. unfold cheby_init. destruct (Z.ltb_spec want 3); [lia|].
    assert (Q : exists K, (if given then Ok (want - zeroes) else enough F (Z.to_nat (want - zeroes)) bessel close (want - zeroes) 2) = Ok K /\ 2 <= K <= want).
    { destruct given; [exists (want - zeroes); split; [reflexivity|]; specialize (G eq_refl); lia|].
      destruct (enough_ok (Z.to_nat (want - zeroes)) bessel close (want - zeroes)) with (i := 2) as (K & E & B & C); try lia. exists K. split; [exact E|lia]. }
    destruct Q as (K & -> & B). cbn [bind]. destruct (small K); [right; reflexivity|]. left. rewrite (rd_nth bessel 0 c0) by lia. cbn [bind]. destruct (Z.ltb_spec K 1); [lia|].
    destruct (fill_ok bessel K) with (c0' := nth (Z.to_nat 0) bessel c0) as (l & -> & Ll & P0 & P); [lia|]. cbn [bind]. exists K, l. split; [reflexivity|]. split; [lia|]. split; [exact Ll|]. split; [exact P0|exact P].
  Qed.
  (** the number of terms is the first one from which on two neighbouring values are close *)
  Lemma enough_first fuel (bessel : list F) close order : order <= zlen bessel -> forall i K, 2 <= i -> (Z.to_nat (order - i) <= fuel)%nat ->
    enough F fuel bessel close order i = Ok K ->
    (K = Z.max i order \/ close (nth (Z.to_nat (K - 1)) bessel c0) (nth (Z.to_nat (K - 2)) bessel c0) = true) /\
    forall j, i <= j < K -> close (nth (Z.to_nat (j - 1)) bessel c0) (nth (Z.to_nat (j - 2)) bessel c0) = false.
  Proof.
    intros L. induction fuel as [|fuel IH]; intros i K Hi Hf E; cbn [enough] in E.
    - injection E as <-. split; [left; lia|]. intros j Hj. lia.
    - destruct (Z.ltb_spec i order) as [B|B]; [|injection E as <-; split; [left; lia|intros; lia]].
      rewrite (rd_nth bessel (i - 1) c0), (rd_nth bessel (i - 2) c0) in E by lia. cbn [bind] in E.
      destruct (close _ _) eqn:Cl in E.
      + injection E as <-. split; [right; exact Cl|intros; lia].
      + destruct (IH (i + 1) K) as [D N]; [lia|lia|exact E|]. split; [destruct D as [D|D]; [left; lia|right; exact D]|].
        intros j Hj. destruct (Z.eq_dec j i) as [->|]; [exact Cl|]. apply N. lia.
  Qed.
End Co.
