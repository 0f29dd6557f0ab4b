(** Proofs about the flux operator (C97). *)
From Coq Require Import Ascii String List ZArith Lia Bool Arith Ring.
From Verif Require Import Base Arrays Algebra Complex Ordered Model.Flux Spec.Flux.
Import ListNotations.

Section Proofs.
  Variable F : ofld.
  Add Ring FXr : (cr_th F).
  Open Scope cr_scope.
  Variable w : F.

  Lemma fold_integral (g : list F) : forall (bra tket : list (Cx F)) (c : Cx F), length bra = length g -> length tket = length g ->
    cx_scale w (fold_left (fun c x => (c + cx_conj (cx_of (- (1 + 1))) * x)%cr)
      (map (fun y => cx_scale (fst y) (snd y)) (combine g (imag (conj_times tket bra)))) c)
    = (cx_scale w c + cx_of ((1 + 1) * integral w g (im_density bra tket)))%cr.
  Proof.
    induction g as [|a g IH]; intros [|b bra] [|t tket] c Lb Lt; try discriminate Lb; try discriminate Lt.
    - cbn. apply cx_eq; cbn; ring.
    - cbn [conj_times imag combine map fold_left fst snd]. change (map (fun z : Cx F => cx_of (snd z)) (map (fun x => (cx_conj (fst x) * snd x)%cr) (combine tket bra))) with (imag (conj_times tket bra)).
      rewrite (IH bra tket); [|injection Lb; auto|injection Lt; auto]. cbn [integral im_density]. destruct c as [c1 c2], b as [b1 b2], t as [t1 t2]. apply cx_eq; cbn; ring.
  Qed.
  Lemma imag_length (a b : list (Cx F)) : length a = length b -> length (imag (conj_times a b)) = length b.
  Proof. intros L. unfold imag, conj_times. rewrite !map_length, combine_length. lia. Qed.

  Lemma element_ok T G o k g bra ket : fx_ops o = [T; G] -> fx_buf o = Some (k, length g) -> fx_one o = Some (length g) ->
    within_volume g G -> keeps_size (length g) T -> length bra = length g -> length ket = length g ->
    flux_element w o bra ket = Ok (cx_of ((1 + 1) * integral w g (im_density bra (T ket)))).
  Proof.
    intros O B N V K Lb Lk. unfold flux_element. rewrite B, N. unfold get. rewrite O. cbn [nth_error bind]. rewrite Lk, Lb, Nat.eqb_refl. cbn [negb].
    assert (Li : length (imag (conj_times (T ket) bra)) = length g) by (rewrite imag_length; [exact Lb|rewrite (K _ Lk); congruence]).
    unfold times_one. rewrite (V _ Li), map_length, combine_length, Li, Nat.min_id, Nat.ltb_irrefl, firstn_all2 by (rewrite map_length, combine_length; lia).
    f_equal. rewrite fold_integral; [|exact Lb|apply K; exact Lk]. apply cx_eq; cbn; ring.
  Qed.

  Lemma weight_after (g : list F) : forall tau (psi t : list (Cx F)), length psi = length g -> length t = length g ->
    integral w g (density (map (fun x => (fst x + - (ii * cx_scale tau (snd x)))%cr) (combine psi t)))
    = integral w g (density psi) + tau * ((1 + 1) * integral w g (im_density psi t)) + tau * tau * integral w g (density t).
  Proof.
    induction g as [|a g IH]; intros tau [|p psi] [|t l] Lp Lt; try discriminate Lp; try discriminate Lt; [cbn; ring|].
    cbn [combine map density integral im_density fst snd]. change (map (fun z => fst z * fst z + snd z * snd z) ?l) with (density l).
    change (map (fun z : Cx F => fst z * fst z + snd z * snd z) (map (fun x => (fst x + - (ii * cx_scale tau (snd x)))%cr) (combine psi l)))
      with (density (map (fun x => (fst x + - (ii * cx_scale tau (snd x)))%cr) (combine psi l))).
    rewrite IH; [|injection Lp; auto|injection Lt; auto]. change (map (fun z : Cx F => fst z * fst z + snd z * snd z) psi) with (density psi).
    change (map (fun z : Cx F => fst z * fst z + snd z * snd z) l) with (density l).
    destruct p as [p1 p2], t as [t1 t2]. cbn. ring.
  Qed.

  Lemma integral_add (g : list F) : forall h r, length g = length h -> integral w (map (fun x => fst x + snd x) (combine g h)) r = integral w g r + integral w h r.
  Proof.
    induction g as [|a g IH]; intros [|b h] r L; try discriminate L; [cbn; ring|]. cbn [combine map fst snd]. destruct r as [|x r]; [cbn; ring|]. cbn [integral].
    rewrite IH by (injection L; auto). ring.
  Qed.
  Lemma integral_all : forall (psi t : list (Cx F)), length psi = length t -> integral w (repeat 1 (length t)) (im_density psi t) = snd (braket w psi t).
  Proof.
    induction psi as [|p psi IH]; intros [|y t] L; try discriminate L; [reflexivity|]. cbn [length repeat integral im_density braket]. rewrite IH by (injection L; auto).
    destruct p as [p1 p2], y as [y1 y2]. cbn. ring.
  Qed.
  Lemma braket_conj : forall a b : list (Cx F), snd (braket w a b) = - snd (braket w b a).
  Proof.
    induction a as [|x a IH]; intros [|y b]; try (cbn; ring). cbn [braket]. specialize (IH b).
    destruct x as [x1 x2], y as [y1 y2]. cbn in *. rewrite IH. ring.
  Qed.
  Lemma double_zero (x : F) : x = - x -> x = 0.
  Proof.
    intros H. destruct (ocmp x 0) as [[L|L]|L]; [exfalso| exact L |exfalso].
    - pose proof (olt_add F _ _ (- x) L) as P. replace (x + - x) with (0 : F) in P by ring. replace (0 + - x) with (- x) in P by ring. rewrite <- H in P. exact (olt_irr F _ (olt_tr F _ _ _ P L)).
    - pose proof (olt_add F _ _ (- x) L) as P. replace (x + - x) with (0 : F) in P by ring. replace (0 + - x) with (- x) in P by ring. rewrite <- H in P. exact (olt_irr F _ (olt_tr F _ _ _ P L)).
  Qed.
  Lemma hermitian_zero n T psi : hermitian w n T -> keeps_size n T -> length psi = n -> integral w (repeat 1 n) (im_density psi (T psi)) = 0.
  Proof.
    intros H K L. rewrite <- (K _ L), integral_all by (rewrite (K _ L); exact L). apply double_zero. rewrite <- braket_conj. f_equal. apply H; exact L.
  Qed.
  Lemma opp_opp (a : F) : a = - - a.
  Proof. ring. Qed.
  Lemma parts_zero T g h psi : length h = length g -> map (fun x => fst x + snd x) (combine g h) = repeat 1 (length g) -> hermitian w (length g) T -> keeps_size (length g) T -> length psi = length g ->
    (1 + 1) * integral w g (im_density psi (T psi)) + (1 + 1) * integral w h (im_density psi (T psi)) = 0.
  Proof.
    intros Lh S H K L. pose proof (integral_add g h (im_density psi (T psi)) (eq_sym Lh)) as P. rewrite S, (hermitian_zero _ T psi H K L) in P.
    transitivity ((1 + 1) * (integral w g (im_density psi (T psi)) + integral w h (im_density psi (T psi)))); [ring|]. rewrite <- P. ring.
  Qed.
  Lemma hop2 s (a b a' b' : Cx F) : braket w [a; b] [cx_scale s b'; cx_scale s a'] = braket w [cx_scale s b; cx_scale s a] [a'; b'].
  Proof. destruct a, b, a', b'. apply cx_eq; cbn; ring. Qed.
End Proofs.
