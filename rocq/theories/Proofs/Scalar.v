(** Proofs about the operators for constants and norms (C100). *)
From Coq Require Import List ZArith Lia Bool Arith Ring Field.
From Verif Require Import Base Arrays Algebra Complex Ordered Model.Scalar Spec.Scalar.
Import ListNotations.
Open Scope Z_scope.

Section Proofs.
  Variable F : ofld.
  Add Field SCf : (f_th F).
  Add Ring SCr : (cr_th (Cx F)).
  Local Notation wf := (list (Cx F)).

  Lemma times_map (c : Cx F) (a : wf) : times c a (map (fun x => cmul x c) a).
  Proof. induction a as [|x a IH]; constructor; [ring|exact IH]. Qed.
  Lemma product_ok w : forall a b : wf, length a = length b -> product w a b (sprod w a b).
  Proof.
    induction a as [|x a IH]; intros [|y b]; try discriminate; intros L.
    - replace (sprod w [] []) with (c0 : Cx F) by (apply cx_eq; cbn; ring). constructor.
    - replace (sprod w (x :: a) (y :: b)) with (cadd (cx_scale w (cmul (cx_conj x) y)) (sprod w a b)).
      + constructor. apply IH. injection L as L. exact L.
      + unfold sprod. cbn [combine map fold_right fst snd]. generalize (fold_right cadd c0 (map (fun x0 : Cx F * Cx F => cmul (cx_conj (fst x0)) (snd x0)) (combine a b))). intros s. destruct x, y, s. apply cx_eq; cbn; ring.
  Qed.
  Lemma product_unique (w : F) (a b : wf) s t : product w a b s -> product w a b t -> s = t.
  Proof. intros H. revert t. induction H as [|x y a b s H IH]; intros t T; inversion T; subst; [reflexivity|]. f_equal. apply IH. assumption. Qed.
  Lemma product_times (w : F) (c : Cx F) (a b b' : wf) s : product w a b s -> times c b b' -> product w a b' (cmul c s).
  Proof.
    intros H. revert b'. induction H as [|x y a b s H IH]; intros b' T; inversion T; subst.
    - replace (cmul c c0) with (c0 : Cx F) by ring. constructor.
    - replace (cmul c (cadd (cx_scale w (cmul (cx_conj x) y)) s)) with (cadd (cx_scale w (cmul (cx_conj x) (cmul c y))) (cmul c s)) by (destruct x, y, c, s; apply cx_eq; cbn; ring).
      constructor. apply IH. assumption.
  Qed.
  Lemma product_times_l (w : F) (c : Cx F) (a a' b : wf) s : product w a b s -> times c a a' -> product w a' b (cmul (cx_conj c) s).
  Proof.
    intros H. revert a'. induction H as [|x y a b s H IH]; intros a' T; inversion T; subst.
    - replace (cmul (cx_conj c) c0) with (c0 : Cx F) by ring. constructor.
    - replace (cmul (cx_conj c) (cadd (cx_scale w (cmul (cx_conj x) y)) s)) with (cadd (cx_scale w (cmul (cx_conj (cmul c x)) y)) (cmul (cx_conj c) s)) by (destruct x, y, c, s; apply cx_eq; cbn; ring).
      constructor. apply IH. assumption.
  Qed.
  Lemma apply_to o (dest x : wf) : length dest = length x -> scal_apply_to o dest x = Ok (scal_apply o x).
  Proof. intros L. unfold scal_apply_to, scal_apply, zlen. rewrite L. destruct (Z.ltb_spec (Z.of_nat (length x)) (Z.of_nat (length x))); [lia|]. rewrite firstn_all. reflexivity. Qed.
  Definition built (p : spars F) : scal F := scal_params scal_new p.
  Lemma value_given p x : sp_value p = Some x -> sc_value (built p) = constant (sp_value p) (sp_im p).
  Proof. intros E. unfold built, scal_params, constant. rewrite E. cbn. destruct (sp_im p); reflexivity. Qed.
  Lemma value_absent p : sp_value p = None -> sc_value (built p) = (c0, match sp_im p with Some x => x | None => c0 end).
  Proof. intros E. unfold built, scal_params. rewrite E. cbn. destruct (sp_im p); reflexivity. Qed.
  Lemma element w o n (bra ket : wf) s : sc_buf o = Some n -> product w bra ket s -> exists o', scal_element w o bra ket = Ok (cmul (sc_value o) s, o') /\ sc_value o' = sc_value o /\ sc_buf o' <> None.
  Proof.
    intros E P. assert (L : length bra = length ket) by (clear E; induction P as [|x y a b s P IH]; [reflexivity|exact (f_equal S IH)]). unfold scal_element. rewrite E. unfold zlen. rewrite L, Z.eqb_refl. cbn [negb]. assert (L' : length bra = length (map (fun c => cmul c (sc_value o)) ket)) by (rewrite map_length; exact L).
    rewrite (product_unique w _ _ _ _ (product_ok w _ _ L') (product_times w _ _ _ _ _ P (times_map _ _))).
    eexists. split; [reflexivity|]. split; [reflexivity|discriminate].
  Qed.
  Lemma size2_nonneg (c : Cx F) : ole c0 (size2 c).
  Proof.
    unfold size2. destruct (sq_nonneg F (fst c)) as [A| <-]; destruct (sq_nonneg F (snd c)) as [B| <-].
    - left. apply add_pos; assumption.
    - left. replace (cadd (cmul (fst c) (fst c)) c0 : F) with (cmul (fst c) (fst c) : F) by ring. exact A.
    - left. replace (cadd c0 (cmul (snd c) (snd c)) : F) with (cmul (snd c) (snd c) : F) by ring. exact B.
    - right. ring.
  Qed.

  (** norms *)
  Lemma real_sum (a : wf) : snd (fold_right cadd (c0 : Cx F) (map (fun x : Cx F * Cx F => cmul (cx_conj (fst x)) (snd x)) (combine a a))) = c0.
  Proof.
    induction a as [|x a IH]; [reflexivity|]. cbn [combine map fold_right fst snd]. revert IH. generalize (fold_right cadd (c0 : Cx F) (map (fun x : Cx F * Cx F => cmul (cx_conj (fst x)) (snd x)) (combine a a))). intros s IH.
    destruct x as [u v], s as [p q]. cbn in *. rewrite IH. ring.
  Qed.
  Lemma real_product w (a : wf) : snd (sprod w a a) = c0.
  Proof. unfold sprod. pose proof (real_sum a) as H. revert H. generalize (fold_right cadd (c0 : Cx F) (map (fun x : Cx F * Cx F => cmul (cx_conj (fst x)) (snd x)) (combine a a))). intros s H. cbn. rewrite H. ring. Qed.
  Lemma times_scale (k : F) (x : wf) : times (k, c0) x (map (fun c => cx_scale k c) x).
  Proof. induction x as [|a x IH]; constructor; [|exact IH]. destruct a; apply cx_eq; cbn; ring. Qed.
  (** sqrt is the root of the product of x with itself *)
  Definition root_of (w : F) (root : F -> F) (x : wf) : Prop := cmul (root (fst (sprod w x x))) (root (fst (sprod w x x))) = fst (sprod w x x).
  Lemma normalized w root (x y : wf) : root_of w root x -> normalize w root x = Some y ->
    sprod w y y = c1 /\ times (fdiv c1 (norm w root x), c0) x y.
  Proof.
    intros R. unfold normalize. set (n := norm w root x).
    assert (N2 : cmul n n = fst (sprod w x x)) by exact R.
    assert (G : n <> c0 -> Some (map (fun c => cx_scale (fdiv c1 n) c) x) = Some y -> sprod w y y = c1 /\ times (fdiv c1 n, c0) x y).
    { intros Nz E. injection E as <-. assert (T : times (fdiv c1 n, c0) x (map (fun c => cx_scale (fdiv c1 n) c) x)).
      { apply times_scale. }
      split; [|exact T]. pose proof (product_ok w x x eq_refl) as P0. pose proof (product_times w _ _ _ _ _ P0 T) as P1. pose proof (product_times_l w _ _ _ _ _ P1 T) as P2.
      etransitivity; [exact (product_unique w _ _ _ _ (product_ok w _ _ eq_refl) P2)|]. pose proof (real_product w x) as I0.
      destruct (sprod w x x) as [a b]. cbn in N2, I0. subst a b. apply cx_eq; cbn; field; exact Nz. }
    destruct (ocmp n c0) as [[H|H]|H]; [|discriminate|]; apply G; [apply neg_neq|apply pos_neq]; exact H.
  Qed.
  Lemma normalize_some w root (x : wf) : root_of w root x -> normalize w root x <> None <-> fst (sprod w x x) <> c0.
  Proof.
    intros R. unfold normalize. set (n := norm w root x). assert (N2 : cmul n n = fst (sprod w x x)) by exact R. split.
    - intros H E. rewrite E in N2. destruct (mul_eq0 F n n N2) as [Z0|Z0]; rewrite Z0 in H; destruct (ocmp c0 c0) as [[X|X]|X]; try (exact (olt_irr F _ X)); apply H; reflexivity.
    - intros H. destruct (ocmp n c0) as [[X|X]|X]; try discriminate. exfalso. apply H. rewrite <- N2, X. ring.
  Qed.
  Lemma scale_one (y : wf) : map (fun c => cx_scale (fdiv c1 (c1 : F)) c) y = y.
  Proof. rewrite <- (map_id y) at 2. apply map_ext. intros [a b]. apply cx_eq; cbn; field; exact (F_1_neq_0 (f_th F)). Qed.
  Lemma twice w root (x y : wf) : root_of w root x -> root c1 = c1 -> normalize w root x = Some y -> normalize w root y = Some y.
  Proof.
    intros R R1 E. destruct (normalized w root x y R E) as [U _]. unfold normalize. assert (N : norm w root y = c1) by (unfold norm; rewrite U; exact R1). rewrite N.
    destruct (ocmp (c1 : F) c0) as [[H|H]|H]; [|exfalso; exact (F_1_neq_0 (f_th F) H)|]; rewrite scale_one; reflexivity.
  Qed.
  (** with a weight that is positive the product of a wave function with itself is not negative *)
  Lemma product_nonneg w (x : wf) : olt c0 w -> ole c0 (fst (sprod w x x)).
  Proof.
    intros W. induction x as [|c x IH]; [right; cbn; ring|].
    replace (fst (sprod w (c :: x) (c :: x))) with (cadd (cmul w (size2 c)) (fst (sprod w x x)) : F).
    - assert (A : ole c0 (cmul w (size2 c))). { destruct (size2_nonneg c) as [H| <-]; [left; apply olt_mul; assumption|right; ring]. }
      destruct A as [A| <-]; [|replace (cadd c0 (fst (sprod w x x)) : F) with (fst (sprod w x x) : F) by ring; exact IH]. destruct IH as [B| <-]; [left; apply add_pos; assumption|].
      left. replace (cadd (cmul w (size2 c)) c0 : F) with (cmul w (size2 c) : F) by ring. exact A.
    - unfold sprod, size2. cbn [combine map fold_right fst snd]. generalize (fold_right cadd c0 (map (fun x0 : Cx F * Cx F => cmul (cx_conj (fst x0)) (snd x0)) (combine x x))). intros s. destruct c, s. cbn. ring.
  Qed.
  Lemma hermitian_real (w : F) (o : scal F) : snd (sc_value o) = c0 -> forall a b s t, product w a (scal_apply o b) s -> product w (scal_apply o a) b t -> s = t.
  Proof.
    intros R a b s t P Q. assert (L : length a = length b). { clear Q. remember (scal_apply o b) as b' eqn:E. assert (L : length a = length b') by (clear E R; induction P as [|x y a' b1 s' P IH]; [reflexivity|exact (f_equal S IH)]). subst b'. unfold scal_apply in L. rewrite map_length in L. exact L. }
    pose proof (product_ok w a b L) as P0.
    pose proof (product_unique w _ _ _ _ P (product_times w _ _ _ _ _ P0 (times_map _ _))) as E1. pose proof (product_unique w _ _ _ _ Q (product_times_l w _ _ _ _ _ P0 (times_map _ _))) as E2.
    etransitivity; [exact E1|]. etransitivity; [|symmetry; exact E2]. f_equal. destruct (sc_value o) as [u v]. cbn in R. subst v. apply cx_eq; cbn; ring.
  Qed.
  Lemma zero_norm (w : F) (x : wf) : olt c0 w -> (fst (sprod w x x) = c0 <-> Forall (fun c => c = c0) x).
  Proof.
    intros W. induction x as [|c x IH]; [split; [constructor|intros _; cbn; ring]|].
    assert (E : fst (sprod w (c :: x) (c :: x)) = cadd (cmul w (size2 c)) (fst (sprod w x x))).
    { unfold sprod, size2. cbn [combine map fold_right fst snd]. generalize (fold_right cadd c0 (map (fun x0 : Cx F * Cx F => cmul (cx_conj (fst x0)) (snd x0)) (combine x x))). intros s. destruct c, s. cbn. ring. }
    rewrite E. pose proof (product_nonneg w x W) as N. split.
    - intros H. assert (Z0 : size2 c = c0).
      { destruct (size2_nonneg c) as [A|A]; [|symmetry; exact A]. exfalso. pose proof (olt_mul F _ _ W A) as B. destruct N as [N|N].
        - pose proof (add_pos F _ _ B N) as X. rewrite H in X. exact (olt_irr F _ X).
        - rewrite <- N in H. replace (cadd (cmul w (size2 c)) c0 : F) with (cmul w (size2 c) : F) in H by ring. rewrite H in B. exact (olt_irr F _ B). }
      rewrite Z0 in H. replace (cadd (cmul w c0) (fst (sprod w x x)) : F) with (fst (sprod w x x) : F) in H by ring. constructor; [|apply IH; exact H].
      unfold size2 in Z0. destruct c as [u v]. cbn in Z0. assert (U : u = c0).
      { destruct (ocmp u c0) as [[X|X]|X]; [|exact X|]; exfalso;
        (assert (P : olt c0 (cmul u u)) by (apply sq_pos; intros ->; exact (olt_irr F _ X))); (destruct (sq_nonneg F v) as [Q|Q]; [pose proof (add_pos F _ _ P Q) as Y; rewrite Z0 in Y; exact (olt_irr F _ Y)|]);
        rewrite <- Q in Z0; replace (cadd (cmul u u) c0 : F) with (cmul u u : F) in Z0 by ring; rewrite Z0 in P; exact (olt_irr F _ P). }
      subst u. replace (cadd (cmul c0 c0) (cmul v v) : F) with (cmul v v : F) in Z0 by ring. destruct (mul_eq0 F v v Z0) as [-> | ->]; reflexivity.
    - intros H. inversion H as [|? ? Hc Hx]; subst. rewrite (proj2 IH Hx). unfold size2. cbn. ring.
  Qed.
  Lemma emin_zero (o : scal F) : size2 (scal_emin o) = c0.
  Proof. unfold size2, scal_emin. cbn. ring. Qed.
End Proofs.
